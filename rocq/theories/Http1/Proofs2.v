(** Bodies with a content length, and what is accepted as a chunked body. *)
From Coq Require Import NArith ZArith List Bool Lia ZifyBool ZifyNat ZifyN.
From Verif Require Import Http1.Model Http1.Spec Http1.Proofs.
Import ListNotations.
Local Open Scope N_scope.

(** ** Content length *)
Definition okp (h : option bchain) : Prop :=
  match h with Some b => bdata b = [] -> bstart b < ballocd b | None => True end.

Definition plain_result (q rest : list N) (ud : list (list N)) (pc : bool) (s : sock) (c : cout) : Prop :=
  exists x q' z fi s', c = Ret z false fi (ud ++ [x]) pc s' /\ x <> [] /\ q = x ++ q'
    /\ obuf fi ++ unread s' = q' ++ rest /\ (0 < z)%Z
    /\ Z.min z (Z.of_N (len q)) = Z.of_N (len x) /\ okp fi /\ advances s s'.

Lemma app_prefix : forall (a u q rest : list N) k,
  a ++ u = q ++ rest -> (k <= length a)%nat -> (k <= length q)%nat ->
  firstn k a = firstn k q /\ skipn k a ++ u = skipn k q ++ rest.
Proof.
  intros a u q rest k E A Q.
  assert (F : firstn k (a ++ u) = firstn k (q ++ rest)) by (rewrite E; reflexivity).
  assert (G : skipn k (a ++ u) = skipn k (q ++ rest)) by (rewrite E; reflexivity).
  rewrite !firstn_app in F. rewrite !skipn_app in G.
  replace (k - length a)%nat with 0%nat in * by lia.
  replace (k - length q)%nat with 0%nat in * by lia.
  rewrite !firstn_O, !app_nil_r in F. cbn [skipn] in G. split; assumption.
Qed.

Lemma finish_plain_ok : forall b ud pc q rest s s0, bdata b <> [] -> q <> [] ->
  bdata b ++ unread s = q ++ rest -> advances s0 s ->
  plain_result q rest ud pc s0 (finish_plain b ud pc (Z.of_N (len q)) s).
Proof.
  intros b ud pc q rest s s0 NB NQ E AD. unfold finish_plain.
  assert (LB : 0 < len (bdata b)) by (destruct (bdata b); [congruence|unfold len; cbn [length]; lia]).
  assert (LQ : 0 < len q) by (destruct q; [congruence|unfold len; cbn [length]; lia]).
  replace (0 <? Z.of_N (len (bdata b)))%Z with true by lia.
  set (k := if (Z.of_N (len q) <? Z.of_N (len (bdata b)))%Z then Z.to_N (Z.of_N (len q)) else len (bdata b)).
  assert (K : k = N.min (len q) (len (bdata b))) by (unfold k; destruct (_ <? _)%Z eqn:C; lia).
  clearbody k.
  assert (K1 : (N.to_nat k <= length (bdata b))%nat) by (unfold len in *; lia).
  assert (K2 : (N.to_nat k <= length q)%nat) by (unfold len in *; lia).
  destruct (app_prefix _ _ _ _ (N.to_nat k) E K1 K2) as [F G].
  assert (LF : length (firstn (N.to_nat k) (bdata b)) = N.to_nat k) by (apply firstn_length_le; exact K1).
  exists (firstn (N.to_nat k) (bdata b)), (skipn (N.to_nat k) q), (Z.of_N (len (bdata b))).
  eexists. exists s. split; [reflexivity|].
  split; [intros Z; rewrite Z in LF; cbn in LF; lia|].
  split; [rewrite F, firstn_skipn; reflexivity|].
  split; [rewrite obuf_drop; exact G|]. split; [lia|].
  split; [unfold len at 3; rewrite LF; lia|]. split; [|exact AD].
  unfold drop_empty. cbn [bdata]. destruct (skipn (N.to_nat k) (bdata b)); [exact I|].
  cbn. discriminate.
Qed.

Lemma read_plain_ok : forall h ud pc q rest s, q <> [] -> okp h ->
  obuf h ++ unread s = q ++ rest -> ~ In Closed (answers s) ->
  (exists b s', read_plain h ud pc (Z.of_N (len q)) s = Ret (-1) true (Some b) ud pc s'
     /\ bdata b = [] /\ okp (Some b) /\ obuf h = [] /\ unread s' = unread s /\ starved s
     /\ exists pre, answers s = pre ++ answers s')
  \/ plain_result q rest ud pc s (read_plain h ud pc (Z.of_N (len q)) s).
Proof.
  intros h ud pc q rest s NQ O E NC. unfold read_plain.
  set (b := match h with Some b => b | None => _ end).
  assert (B : bdata b = obuf h /\ (bdata b = [] -> bstart b < ballocd b)).
  { destruct h; subst b; cbn; split; auto. intros _. reflexivity. }
  destruct B as [B1 B2]. clearbody b.
  destruct (bdata b) as [|c l] eqn:D.
  - assert (CD : (len [] =? ballocd b) || (0 <? len []) = false).
    { specialize (B2 eq_refl). change (len []) with 0. rewrite orb_false_r. apply N.eqb_neq. lia. }
    rewrite CD.
    assert (UN : unread s <> []).
    { rewrite <- B1 in E. cbn in E. rewrite E. destruct q; [congruence|discriminate]. }
    unfold pull. rewrite D. specialize (B2 eq_refl).
    replace (ballocd b <=? bstart b + len []) with false by (unfold len; cbn [length]; lia).
    destruct (answers s) as [|a l] eqn:A.
    + left. exists b, s. split; [reflexivity|]. split; [exact D|].
      split; [intros _; exact B2|]. split; [symmetry; exact B1|]. split; [reflexivity|].
      split; [right; rewrite A; destruct (unread s); [congruence|cbn; lia]|exists []; auto].
    + destruct a as [n| |].
      * destruct (unread s) as [|u0 us] eqn:Q; [congruence|]. rewrite <- Q in *.
        set (k := N.to_nat _).
        destruct (min_take n (ballocd b - len [] - bstart b) (unread s)) as (K1 & K2 & K3);
          [unfold len; cbn [length]; lia|exact UN|]. fold k in K1, K2, K3.
        right. apply finish_plain_ok.
        { cbn. intros Z. assert (length (firstn k (unread s)) = k) by (apply firstn_length_le; exact K2).
          rewrite Z in H. cbn in H. lia. }
        { exact NQ. }
        { cbn [bdata unread app]. rewrite firstn_skipn. rewrite <- B1 in E. exact E. }
        { split; [exists [Ready n]; rewrite A; reflexivity|]. cbn [unread answers].
          rewrite A, skipn_length. cbn [length]. lia. }
      * left. exists b, (mksock (unread s) l). split; [reflexivity|]. split; [exact D|].
        split; [intros _; exact B2|]. split; [symmetry; exact B1|]. split; [reflexivity|].
        split; [left; rewrite A; left; reflexivity|exists [Again]; auto].
      * exfalso. apply NC. left. reflexivity.
  - replace ((len (c :: l) =? ballocd b) || (0 <? len (c :: l))) with true
      by (replace (0 <? len (c :: l)) with true by (unfold len; cbn [length]; lia); rewrite orb_true_r; reflexivity).
    right. apply finish_plain_ok.
    + rewrite D. discriminate.
    + exact NQ.
    + rewrite D, B1. exact E.
    + apply advances_refl.
Qed.

Definition PInv (body rest : list N) (r : req) (s : sock) : Prop :=
  chunked r = false /\ okp (first_input r) /\ Forall (fun b => b <> []) (user_data r)
  /\ exists q, buffered r ++ unread s = q ++ rest /\ body = concat (user_data r) ++ q
     /\ (content_length r = content_length_read r + Z.of_N (len q))%Z.

Definition pconsumed (body rest : list N) (r : req) (s : sock) (n : N) (o : cons) (r' : req) (s' : sock) : Prop :=
  (exists pre, answers s = pre ++ answers s') /\
  ((exists x body', o = Got x /\ x <> [] /\ len x <= n /\ body = x ++ body'
      /\ PInv body' rest r' s' /\ (advances s s' \/ starved s))
   \/ (o = Wait /\ PInv body rest r' s' /\ starved s /\ buffered r = [] /\ user_data r = [])
   \/ (o = Done /\ body = [] /\ PInv [] rest r' s' /\ s' = s)).

Lemma len_nil : forall q, len q = 0 -> q = [].
Proof. intros [|c q] H; [reflexivity|]. unfold len in H. cbn [length] in H. lia. Qed.

Lemma consume_plain : forall body rest r s n o r' s',
  0 < n -> PInv body rest r s -> ~ In Closed (answers s) ->
  consume r s n = (o, r', s') -> pconsumed body rest r s n o r' s'.
Proof.
  intros body rest r s n o r' s' P (C & O & F & q & E & B & L) NC H.
  unfold consume in H. rewrite C in H.
  destruct (content_length_read r <? content_length r)%Z eqn:CL.
  - assert (NQ : q <> []) by (intros ->; cbn in L; lia).
    replace (content_length r - content_length_read r)%Z with (Z.of_N (len q)) in H by lia.
    destruct (read_plain_ok (first_input r) (user_data r) (payload_complete r) q rest s NQ O E NC)
      as [(b & s1 & R & D1 & D2 & D3 & D4 & D5 & D6)|(x & q' & z & fi & s1 & R & X & Q & G & Z1 & Z2 & OK' & AD)];
      rewrite R in H.
    + change ((-1 =? -2)%Z) with false in H. change ((-1 <? 0)%Z) with true in H. cbv iota in H.
      rewrite Z.add_0_r in H.
      match type of H with (let '(_, _) := deliver ?R n in _) = _ => set (r1 := R) in H end.
      destruct (deliver r1 n) as [o1 r2] eqn:D. injection H as <- <- <-.
      destruct (deliver_ok r1 n o1 r2 P F D) as (V1 & V2 & V3 & V4 & V5 & V6 & V7).
      assert (BF : buffered r2 ++ unread s1 = q ++ rest).
      { unfold buffered. rewrite V1. cbn. rewrite D1. cbn. rewrite D4.
        unfold buffered in E. change (obuf (first_input r) ++ unread s = q ++ rest) in E.
        rewrite D3 in E. exact E. }
      assert (I : forall q0, user_data r2 = q0 -> PInv (concat q0 ++ q) rest r2 s1).
      { intros q0 <-. split; [rewrite V2; reflexivity|]. split; [rewrite V1; exact D2|].
        split; [exact V6|]. exists q. split; [exact BF|]. split; [reflexivity|].
        rewrite V4, V5. exact L. }
      split; [exact D6|]. destruct V7 as [(U & x & -> & X1 & X2 & X3)|(U & Ho & U')].
      * left. exists x, (concat (user_data r2) ++ q). split; [reflexivity|]. split; [exact X1|].
        split; [exact X2|]. split; [rewrite B; change (user_data r) with (user_data r1); rewrite X3, <- app_assoc; reflexivity|].
        split; [apply I; reflexivity|]. right. exact D5.
      * right. left. split.
        { subst o1. unfold nothing, r1. cbn [chunked content_length_read content_length].
          replace (content_length_read r =? content_length r)%Z with false by lia. reflexivity. }
        change (user_data r1) with (user_data r) in U.
        split; [|split; [exact D5|split; [exact D3|exact U]]].
        rewrite B, U. specialize (I [] U'). exact I.
    + replace (z =? -2)%Z with false in H by lia. replace (z <? 0)%Z with false in H by lia.
      rewrite Z2 in H.
      match type of H with (let '(_, _) := deliver ?R n in _) = _ => set (r1 := R) in H end.
      destruct (deliver r1 n) as [o1 r2] eqn:D. injection H as <- <- <-.
      assert (F1 : Forall (fun b => b <> []) (user_data r1)).
      { unfold r1. cbn [user_data]. apply Forall_app. split; [exact F|]. repeat constructor. exact X. }
      destruct (deliver_ok r1 n o1 r2 P F1 D) as (V1 & V2 & V3 & V4 & V5 & V6 & V7).
      split; [destruct AD as [AD _]; exact AD|].
      destruct V7 as [(U & y & -> & X1 & X2 & X3)|(U & _)].
      * left. exists y, (concat (user_data r2) ++ q'). split; [reflexivity|]. split; [exact X1|].
        split; [exact X2|].
        split. { rewrite app_assoc, <- X3. unfold r1. cbn [user_data]. rewrite concat_app. cbn [concat].
                 rewrite app_nil_r, <- app_assoc, B, Q. reflexivity. }
        split; [|left; exact AD].
        split; [rewrite V2; reflexivity|]. split; [rewrite V1; exact OK'|]. split; [exact V6|].
        exists q'. split; [unfold buffered; rewrite V1; exact G|]. split; [reflexivity|].
        rewrite V4, V5. unfold r1. cbn [content_length content_length_read].
        rewrite Q, len_app in L. lia.
      * exfalso. unfold r1 in U. cbn [user_data] in U. destruct (user_data r); discriminate.
  - assert (q = []) as -> by (apply len_nil; lia). rewrite app_nil_r in B. cbn [app] in E.
    set (r1 := mkreq (first_input r) (user_data r) (chunked r) (read_last_chunk r)
                     (content_length r) (content_length_read r) true) in *.
    rewrite <- C in H. fold r1 in H.
    destruct (user_data r) as [|u us] eqn:U.
    + cbn [has_data] in H. injection H as <- <- <-.
      split; [exists []; reflexivity|]. right. right. split; [reflexivity|]. split; [exact B|].
      split; [|reflexivity]. split; [exact C|]. split; [exact O|]. split; [constructor|].
      exists []. split; [exact E|]. split; [reflexivity|exact L].
    + pose proof (Forall_inv F) as Fu. cbv beta in Fu. destruct u as [|c u]; [congruence|]. cbn [has_data] in H.
      destruct (deliver r1 n) as [o1 r2] eqn:D. injection H as <- <- <-.
      destruct (deliver_ok r1 n o1 r2 P) as (V1 & V2 & V3 & V4 & V5 & V6 & V7); [exact F|exact D|].
      split; [exists []; reflexivity|].
      destruct V7 as [(_ & y & -> & X1 & X2 & X3)|(U' & _)]; [|discriminate].
      left. exists y, (concat (user_data r2)). split; [reflexivity|]. split; [exact X1|].
      split; [exact X2|]. split; [rewrite B; exact X3|]. split; [|left; apply advances_refl].
      split; [rewrite V2; exact C|]. split; [rewrite V1; exact O|]. split; [exact V6|].
      exists []. split; [unfold buffered; rewrite V1; exact E|]. split; [rewrite app_nil_r; reflexivity|].
      rewrite V4, V5. exact L.
Qed.

Lemma consumes_plain_done : forall rest lens r s os r' s', Forall (fun n => 0 < n) lens ->
  PInv [] rest r s -> ~ In Closed (answers s) -> consumes r s lens = (os, r', s') ->
  Forall (eq Done) os /\ length lens = length os /\ buffered r' ++ unread s' = rest.
Proof.
  induction lens as [|n lens IH]; intros r s os r' s' P I NC H; cbn [consumes] in H.
  - injection H as <- <- <-. split; [constructor|]. split; [reflexivity|].
    destruct I as (_ & _ & _ & q & E & B & L). symmetry in B. apply app_eq_nil in B. destruct B as [_ ->].
    exact E.
  - inversion P as [|? ? P1 P2]; subst.
    destruct (consume r s n) as [[o r1] s1] eqn:C.
    destruct (consumes r1 s1 lens) as [[os1 r2] s2] eqn:CS. injection H as <- <- <-.
    destruct (consume_plain _ _ _ _ _ _ _ _ P1 I NC C)
      as [(pre & A) [(x & body' & -> & X1 & X2 & Q & _)|[(-> & I1 & St & Bf & Ud)|(-> & _ & I1 & ->)]]].
    + symmetry in Q. apply app_eq_nil in Q. destruct Q. congruence.
    + exfalso. (* nothing is missing *)
      destruct I as (C0 & O0 & F0 & q & E & B & L). symmetry in B. apply app_eq_nil in B. destruct B as [_ ->].
      unfold consume in C. rewrite C0 in C. change (Z.of_N (len [])) with 0%Z in L.
      assert (CL : (content_length_read r <? content_length r)%Z = false) by lia.
      rewrite CL in C. rewrite Ud in C. cbn [has_data] in C. congruence.
    + destruct (IH r1 s os1 r2 s2) as (B1 & B2 & B3); auto.
      split; [constructor; auto|]. split; [cbn; lia|exact B3].
Qed.

Lemma consumes_plain : forall rest lens body r s os r' s', Forall (fun n => 0 < n) lens ->
  PInv body rest r s -> ~ In Closed (answers s) -> consumes r s lens = (os, r', s') ->
  reads_body body lens os
  /\ (In Done os -> buffered r' ++ unread s' = rest)
  /\ (~ In Again (answers s) -> (length (unread s) <= length (answers s))%nat -> ~ In Wait os).
Proof.
  induction lens as [|n lens IH]; intros body r s os r' s' P I NC H; cbn [consumes] in H.
  - injection H as <- <- <-. split; [constructor|]. split; [intros []|]. intros _ _ [].
  - inversion P as [|? ? P1 P2]; subst.
    destruct (consume r s n) as [[o r1] s1] eqn:C.
    destruct (consumes r1 s1 lens) as [[os1 r2] s2] eqn:CS. injection H as <- <- <-.
    destruct (consume_plain _ _ _ _ _ _ _ _ P1 I NC C)
      as [(pre & A) [(x & body' & -> & X1 & X2 & -> & I1 & Ad)|[(-> & I1 & St & _)|(-> & -> & I1 & ->)]]].
    + assert (NC1 : ~ In Closed (answers s1))
        by (intros Q; apply NC; rewrite A; apply in_or_app; right; exact Q).
      destruct (IH body' r1 s1 os1 r2 s2) as (B1 & B2 & B3); auto.
      split; [constructor; auto|]. split.
      * intros [Q|Q]; [discriminate|auto].
      * intros NA LE [Q|Q]; [discriminate|].
        destruct Ad as [Ad|[St|St]]; [|contradiction|lia]. apply B3 in Q; auto.
        { intros Z. apply NA. rewrite A. apply in_or_app. right. exact Z. }
        { destruct Ad as [_ Ad]. lia. }
    + assert (NC1 : ~ In Closed (answers s1))
        by (intros Q; apply NC; rewrite A; apply in_or_app; right; exact Q).
      destruct (IH body r1 s1 os1 r2 s2) as (B1 & B2 & B3); auto.
      split; [constructor; auto|]. split.
      * intros [Q|Q]; [discriminate|auto].
      * intros NA LE _. destruct St as [St|St]; [contradiction|lia].
    + destruct (consumes_plain_done rest lens r1 s os1 r2 s2 P2 I1 NC CS) as (D1 & D2 & D4).
      split; [constructor; auto|]. split.
      * intros _. exact D4.
      * intros _ _ [Q|Q]; [discriminate|]. rewrite Forall_forall in D1. apply D1 in Q. discriminate.
Qed.

Lemma start_pinv : forall body rest left s,
  left ++ unread s = body ++ rest ->
  PInv body rest (body_start false (Z.of_N (len body)) left) s.
Proof.
  intros body rest left s E. split; [reflexivity|].
  split; [unfold body_start; destruct left; [exact I|cbn; discriminate]|].
  split; [constructor|]. exists body.
  split; [|split; [reflexivity|reflexivity]].
  replace (buffered (body_start false (Z.of_N (len body)) left)) with left; [exact E|]. destruct left; reflexivity.
Qed.

(** ** What is accepted as a chunked body *)
Lemma digit_inv : forall c v, digit c = Some v -> hexdigit c v.
Proof.
  intros c v H. unfold digit in H. unfold hexdigit.
  destruct ((48 <=? c) && (c <=? 57)) eqn:A; [injection H as <-; lia|].
  destruct ((97 <=? c) && (c <=? 102)) eqn:B; [injection H as <-; lia|].
  destruct ((65 <=? c) && (c <=? 70)) eqn:C; [injection H as <-; lia|discriminate].
Qed.

Lemma size_loop_inv : forall l a n v, hexstr a n -> size_loop l (w32 n) = Some v ->
  exists m, hexstr (a ++ l) m /\ v = m mod 2 ^ 32.
Proof.
  induction l as [|c l IH]; intros a n v A H.
  - cbn in H. injection H as <-. exists n. rewrite app_nil_r. split; [exact A|reflexivity].
  - cbn [size_loop] in H. destruct (digit c) as [d|] eqn:D; [|discriminate].
    apply digit_inv in D. pose proof (hexdigit_lt _ _ D) as [LD _].
    assert (E : N.lor (w32 (N.shiftl (w32 n) 4)) d = w32 (16 * n + d)).
    { rewrite shl4. unfold w32.
      assert (Q : (16 * (n mod 2 ^ 32)) mod 2 ^ 32 = 16 * (n mod 2 ^ 28)).
      { change (2 ^ 32) with (16 * 2 ^ 28) at 2. rewrite N.mul_mod_distr_l by lia.
        f_equal. change (2 ^ 32) with (2 ^ 28 * 16). rewrite N.mod_mul_r by lia.
        rewrite N.mul_comm, N.mod_add by lia. apply N.mod_mod. lia. }
      rewrite Q. rewrite lor_add16 by exact LD.
      symmetry. change (2 ^ 32) with (16 * 2 ^ 28).
      rewrite N.mod_mul_r by lia.
      replace (16 * n + d) with (d + n * 16) by lia.
      rewrite N.mod_add, N.mod_small by lia.
      rewrite N.div_add, N.div_small by lia. rewrite N.add_0_l. lia. }
    rewrite E in H.
    destruct (IH (a ++ [c]) (16 * n + d) v) as (m & M & V).
    + constructor; assumption.
    + exact H.
    + exists m. rewrite <- app_assoc in M. split; assumption.
Qed.

Lemma find_crlf_some : forall l p, find_crlf l = Some p ->
  l = firstn p l ++ crlf ++ skipn (p + 2) l /\ (p + 2 <= length l)%nat.
Proof.
  induction l as [|c l IH]; intros p H; [discriminate|].
  destruct l as [|d l]; [discriminate|].
  change (find_crlf (c :: d :: l)) with
    (if (c =? 13) && (d =? 10) then Some O else option_map S (find_crlf (d :: l))) in H.
  destruct ((c =? 13) && (d =? 10)) eqn:E.
  - injection H as <-. apply andb_prop in E. destruct E as [E1 E2].
    apply N.eqb_eq in E1. apply N.eqb_eq in E2. subst. split; [reflexivity|cbn; lia].
  - destruct (find_crlf (d :: l)) as [p'|] eqn:F; [|discriminate]. injection H as <-.
    destruct (IH p' eq_refl) as [A B].
    cbn [firstn]. replace (S p' + 2)%nat with (S (p' + 2)) by lia.
    cbn [skipn]. change ((c :: firstn p' (d :: l)) ++ crlf ++ skipn (p' + 2) (d :: l))
      with (c :: (firstn p' (d :: l) ++ crlf ++ skipn (p' + 2) (d :: l))).
    split; [f_equal; exact A|cbn [length] in *; lia].
Qed.

(** The wire of one accepted chunk. *)
Definition lax_one (d w : list N) : Prop :=
  exists z n t, hexstr z n /\ n mod 2 ^ 32 = len d /\ w = z ++ crlf ++ d ++ t
    /\ length t = 2%nat /\ (d <> [] -> t = crlf).

Definition sound_result (w0 : list N) (ud : list (list N)) (pc : bool) (c : cout) : Prop :=
  match c with
  | Ret z bl fi ud' pc' s' =>
      ook fi /\
      ((bl = true /\ z = (-1)%Z /\ ud' = ud /\ obuf fi ++ unread s' = w0)
       \/ (bl = false /\ (z < 0)%Z /\ len (obuf fi ++ unread s') <= len w0)
       \/ (bl = false /\ exists d w, lax_one d w /\ z = Z.of_N (len d)
             /\ ud' = match d with [] => ud | _ => ud ++ [d] end
             /\ w0 = w ++ obuf fi ++ unread s'))
  | Grew => True
  | Oob => False
  end.

Lemma finish_sound : forall z n b p ud pc s w0,
  hexstr z n -> bok b -> find_crlf (bdata b) = Some p -> firstn p (bdata b) = z ->
  bdata b ++ unread s = w0 -> len (bdata b) < 2 ^ 31 - 4 ->
  w32 (n mod 2 ^ 32 + w32 (N.of_nat p + 4)) <= len (bdata b) ->
  sound_result w0 ud pc
    (finish_chunk (to_int (n mod 2 ^ 32))
      (mkb (bstart b + N.of_nat p + 2) (skipn (p + 2) (bdata b)) (ballocd b)) ud pc s).
Proof.
  intros z n b p ud pc s w0 HZ O F FZ E LB ND.
  destruct (find_crlf_some _ _ F) as [A LP].
  set (c := n mod 2 ^ 32) in *.
  assert (LC : c < 2 ^ 32) by (apply N.mod_lt; lia).
  set (x := skipn (p + 2) (bdata b)) in *.
  assert (LX : (length x + (p + 2) = length (bdata b))%nat) by (unfold x; rewrite skipn_length; lia).
  assert (W : w32 (N.of_nat p + 4) = N.of_nat p + 4).
  { unfold w32. apply N.mod_small. unfold len in LB. lia. }
  rewrite W in ND. unfold finish_chunk, to_int.
  destruct (c <? 2 ^ 31) eqn:C31.
  - assert (W2 : w32 (c + (N.of_nat p + 4)) = c + (N.of_nat p + 4)).
    { apply N.mod_small. unfold len in LB. lia. }
    rewrite W2 in ND.
    destruct (0 <? Z.of_N c)%Z eqn:PC.
    + cbn [bstart bdata ballocd].
      set (k := N.min (len x) (Z.to_N (Z.of_N c))).
      destruct (skipn (N.to_nat k) x) as [|x1 tl] eqn:S1.
      { cbn [sound_result]. split.
        - cbn. unfold bok, len in *. cbn [bstart bdata ballocd length]. unfold k, len. lia.
        - right. left. split; [reflexivity|]. split; [lia|]. cbn [obuf bdata app].
          rewrite <- E, len_app. lia. }
      assert (LS : (length (skipn (N.to_nat k) x) + N.to_nat k = length x)%nat)
        by (rewrite skipn_length; unfold k, len; lia).
      assert (NEG : forall u, u = skipn (N.to_nat k) x ->
                sound_result w0 ud pc (Ret (-2) false (Some (mkb (bstart b + N.of_nat p + 2 + k) u (ballocd b)))
                                  (ud ++ [firstn (N.to_nat k) x]) pc s)).
      { intros u ->. cbn [sound_result]. split.
        - cbn. unfold bok, len in *. cbn [bstart bdata ballocd]. unfold k, len in *. lia.
        - right. left. split; [reflexivity|]. split; [lia|]. cbn [obuf bdata].
          rewrite <- E, !len_app. unfold len. lia. }
      destruct (N.eq_dec x1 13) as [->|N1].
      2:{ replace (match x1 with 13 => _ | _ => _ end) with
            (Ret (-2) false (Some (mkb (bstart b + N.of_nat p + 2 + k) (x1 :: tl) (ballocd b)))
                 (ud ++ [firstn (N.to_nat k) x]) pc s).
          - apply NEG. symmetry. exact S1.
          - destruct x1 as [|[[[[[]|[]|]|[[]|[]|]|]|[[[]|[]|]|[[]|[]|]|]|]|[[[[]|[]|]|[[]|[]|]|]|[[[]|[]|]|[[]|[]|]|]|]|]]; try reflexivity; congruence. }
      destruct tl as [|x2 tl]; [apply NEG; symmetry; exact S1|].
      destruct (N.eq_dec x2 10) as [->|N2].
      2:{ replace (match x2 with 10 => _ | _ => _ end) with
            (Ret (-2) false (Some (mkb (bstart b + N.of_nat p + 2 + k) (13 :: x2 :: tl) (ballocd b)))
                 (ud ++ [firstn (N.to_nat k) x]) pc s).
          - apply NEG. symmetry. exact S1.
          - destruct x2 as [|[[[[[]|[]|]|[[]|[]|]|]|[[[]|[]|]|[[]|[]|]|]|]|[[[[]|[]|]|[[]|[]|]|]|[[[]|[]|]|[[]|[]|]|]|]|]]; try reflexivity; congruence. }
      rewrite S1 in LS. cbn [length] in LS.
      assert (K : k = c).
      { unfold k, len in *. lia. }
      rewrite K in *. cbn [sound_result].
      split. { apply ook_drop. unfold bok, len in *. cbn [bstart bdata ballocd]. lia. }
      right. right. split; [reflexivity|].
      assert (LD : len (firstn (N.to_nat c) x) = c).
      { unfold len. rewrite firstn_length_le by lia. lia. }
      exists (firstn (N.to_nat c) x), (z ++ crlf ++ firstn (N.to_nat c) x ++ crlf).
      split. { exists z, n, crlf. rewrite LD. repeat split; auto. }
      rewrite LD. split; [reflexivity|].
      split. { destruct (firstn (N.to_nat c) x) eqn:FX; [|reflexivity]. unfold len in LD. cbn in LD. lia. }
      rewrite obuf_drop, <- E, A, FZ. rewrite <- (firstn_skipn (N.to_nat c) x) at 1.
      rewrite S1. rewrite <- !app_assoc. reflexivity.
    + assert (c = 0) as C0 by lia. replace (Z.of_N c =? 0)%Z with true by lia.
      cbn [bdata bstart ballocd].
      assert (L2 : (2 <= length x)%nat).
      { unfold len in *. lia. }
      replace (len x <? 2) with false by (unfold len; lia). cbn [sound_result].
      split. { apply ook_drop. unfold bok, len in *. cbn [bstart bdata ballocd]. rewrite skipn_length. lia. }
      right. right. split; [reflexivity|].
      exists [], (z ++ crlf ++ firstn 2 x). split.
      { exists z, n, (firstn 2 x). cbn [len length app]. repeat split; auto.
        - apply firstn_length_le. exact L2.
        - congruence. }
      split; [reflexivity|]. split; [reflexivity|].
      rewrite obuf_drop, <- E, A, FZ. rewrite <- (firstn_skipn 2 x) at 1.
      rewrite <- !app_assoc. reflexivity.
  - replace (0 <? Z.of_N c - 2 ^ 32)%Z with false by lia.
    replace (Z.of_N c - 2 ^ 32 =? 0)%Z with false by lia. cbn [sound_result].
    split. { apply ook_drop. unfold bok, len in *. cbn [bstart bdata ballocd]. lia. }
    right. left. split; [reflexivity|]. split; [lia|].
    rewrite obuf_drop, <- E, !len_app. unfold len. lia.
Qed.

Lemma pull_sound : forall w0 ud pc again b s,
  bok b -> bdata b ++ unread s = w0 ->
  (forall a l b' s', answers s = a :: l -> answers s' = l -> bok b' -> bdata b' ++ unread s' = w0 ->
     sound_result w0 ud pc (again b' s')) ->
  sound_result w0 ud pc (pull again b ud pc s).
Proof.
  intros w0 ud pc again b s O E IH. unfold pull.
  destruct (ballocd b <=? bstart b + len (bdata b)) eqn:R; [exact I|].
  assert (BL : forall r0 u, u = unread s -> sound_result w0 ud pc (Ret (-1) true (Some b) ud pc (mksock u r0))).
  { intros r0 u ->. cbn [sound_result]. split; [exact O|]. left. repeat split. exact E. }
  destruct (answers s) as [|a l] eqn:A.
  - destruct s as [u a]. apply (BL a u). reflexivity.
  - destruct a as [n| |].
    + destruct (unread s) as [|u0 us] eqn:Q; [apply BL; reflexivity|]. rewrite <- Q in *.
      set (k := N.to_nat _).
      destruct (min_take n (ballocd b - len (bdata b) - bstart b) (unread s)) as (K1 & K2 & K3);
        [lia|rewrite Q; discriminate|]. fold k in K1, K2, K3.
      apply (IH (Ready n) l); [reflexivity|reflexivity| |].
      * unfold bok, len in *. cbn [bstart bdata ballocd].
        rewrite app_length, (firstn_length_le _ K2). lia.
      * cbn [bdata unread]. rewrite <- app_assoc, firstn_skipn. exact E.
    + apply BL. reflexivity.
    + cbn [sound_result]. split; [exact O|]. right. left. split; [reflexivity|].
      split; [lia|]. cbn [obuf unread]. rewrite E. lia.
Qed.

Lemma read_chunk_sound : forall w0 ud pc, len w0 < 2 ^ 31 - 4 ->
  forall f h s, f = answers s -> ook h -> obuf h ++ unread s = w0 ->
  sound_result w0 ud pc (read_chunk f h ud pc s).
Proof.
  intros w0 ud pc LW.
  assert (ST : forall again h s, ook h -> obuf h ++ unread s = w0 ->
    (forall a l b' s', answers s = a :: l -> answers s' = l -> bok b' -> bdata b' ++ unread s' = w0 ->
       sound_result w0 ud pc (again b' s')) ->
    sound_result w0 ud pc (chunk_step again h ud pc s)).
  { intros again h s O E IH. unfold chunk_step.
    destruct (ready_head_ok h O) as (B1 & B2 & B3).
    set (b := ready_head h) in *. clearbody b. rewrite <- B1 in E.
    assert (LB : len (bdata b) < 2 ^ 31 - 4) by (rewrite <- E, len_app in LW; lia).
    destruct (find_crlf (bdata b)) as [p|] eqn:F.
    - destruct (size_loop (firstn p (bdata b)) 0) as [c|] eqn:SL.
      + destruct (size_loop_inv _ [] 0 c hs_nil SL) as (m & M & ->). cbn [app] in M.
        destruct (_ <=? _) eqn:ND.
        * apply (finish_sound (firstn p (bdata b)) m b p); auto. lia.
        * destruct (fit_head_ok b (w32 (m mod 2 ^ 32 + w32 (N.of_nat p + 4))) B2) as (H1 & H2).
          destruct H2 as [H3 H4]; [lia|].
          apply pull_sound; auto. rewrite H1. exact E.
      + cbn [sound_result]. split; [exact B2|]. right. left. split; [reflexivity|].
        split; [lia|]. cbn [obuf]. rewrite E. lia.
    - apply pull_sound; auto. }
  induction f as [|a f IH]; intros h s A O E; cbn [read_chunk]; apply ST; auto.
  - intros a l b' s' A'. rewrite <- A in A'. discriminate.
  - intros a' l b' s' A' A2 B' E'. rewrite <- A in A'. injection A' as -> ->.
    apply IH; auto.
Qed.

Definition lax_open (ds : list (list N)) (w : list N) : Prop :=
  forall ds' w', lax_wire ds' w' -> lax_wire (ds ++ ds') (w ++ w').

Lemma lax_open_nil : lax_open [] [].
Proof. intros ds w H. exact H. Qed.

Lemma lax_open_snoc : forall ds w d w1, lax_open ds w -> lax_one d w1 -> d <> [] ->
  lax_open (ds ++ [d]) (w ++ w1).
Proof.
  intros ds w d w1 H (z & n & t & Z & M & -> & T & TC) ND ds' w' H'.
  rewrite <- !app_assoc. apply H. rewrite (TC ND).
  apply (lw_chunk z n d ds' w'); auto.
Qed.

Lemma lax_close : forall ds w w1, lax_open ds w -> lax_one [] w1 -> lax_wire ds (w ++ w1).
Proof.
  intros ds w w1 H (z & n & t & Z & M & -> & T & _).
  rewrite <- (app_nil_r ds). apply H. cbn [app].
  destruct t as [|x [|y [|? ?]]]; try discriminate. apply (lw_last z n); auto.
Qed.

(** The bytes behind the reader and before it. *)
Definition SInv (W got : list N) (r : req) (s : sock) : Prop :=
  chunked r = true /\ ook (first_input r) /\ Forall (fun b => b <> []) (user_data r)
  /\ exists ds w, W = w ++ buffered r ++ unread s
     /\ got ++ concat (user_data r) = concat ds
     /\ (if read_last_chunk r then lax_wire ds w else lax_open ds w).

Definition good (o : cons) : Prop :=
  match o with Got _ | Wait | Done => True | _ => False end.

Lemma deliver_sinv : forall W got r s n o r', 0 < n -> SInv W got r s ->
  deliver r n = (o, r') ->
  SInv W (got ++ received [o]) r' s
  /\ (o = Done -> read_last_chunk r' = true /\ user_data r' = [])
  /\ buffered r' = buffered r.
Proof.
  intros W got r s n o r' P (C & O & F & ds & w & E & G & L) H.
  destruct (deliver_ok r n o r' P F H) as (D1 & D2 & D3 & D4 & D5 & D6 & D7).
  assert (B : buffered r' = buffered r) by (unfold buffered; rewrite D1; reflexivity).
  split; [|split; [|exact B]].
  - split; [congruence|]. split; [rewrite D1; exact O|]. split; [exact D6|].
    exists ds, w. split; [rewrite B; exact E|]. split; [|rewrite D3; exact L].
    rewrite <- G. destruct D7 as [(U & x & -> & X1 & X2 & X3)|(U & Ho & U')].
    + cbn [received]. rewrite app_nil_r, X3, app_assoc. reflexivity.
    + rewrite U, U'. subst o. unfold nothing. rewrite C.
      destruct (read_last_chunk r); cbn; rewrite !app_nil_r; reflexivity.
  - intros ->. destruct D7 as [(U & x & Q & _)|(U & Ho & U')]; [discriminate|].
    split; [|exact U']. rewrite D3. unfold nothing in Ho. rewrite C in Ho.
    destruct (read_last_chunk r); [reflexivity|discriminate].
Qed.

Lemma consume_sound : forall W got r s n o r' s', len W < 2 ^ 31 - 4 -> 0 < n ->
  SInv W got r s -> consume r s n = (o, r', s') ->
  o <> Overrun /\ (good o -> SInv W (got ++ received [o]) r' s'
     /\ (o = Done -> read_last_chunk r' = true /\ user_data r' = [])).
Proof.
  intros W got r s n o r' s' LW P I H. pose proof I as (C & O & F & ds & w & E & G & L).
  unfold consume in H. rewrite C in H.
  destruct (read_last_chunk r) eqn:RL.
  - destruct (deliver r n) as [o1 r1] eqn:D. injection H as <- <- <-.
    destruct (deliver_sinv W got r s n o1 r1 P I D) as (A1 & A2 & A3).
    split; [|auto]. intros ->.
    destruct (deliver_ok r n _ r1 P F D) as (_ & _ & _ & _ & _ & _ & [(U & x & Q & _)|(U & Ho & _)]); [discriminate|].
    unfold nothing in Ho. rewrite C, RL in Ho. discriminate.
  - assert (LW' : len (obuf (first_input r) ++ unread s) < 2 ^ 31 - 4).
    { rewrite E in LW. rewrite len_app in LW. change (buffered r) with (obuf (first_input r)) in LW. lia. }
    assert (R := read_chunk_sound _ (user_data r) (payload_complete r) LW' (answers s) (first_input r) s
                   eq_refl O eq_refl).
    destruct (read_chunk _ _ _ _ _) as [z bl fi ud pc s1| |]; [|injection H as <- <- <-; split; [discriminate|intros []]|contradiction].
    cbn [sound_result] in R. destruct R as (OF & [(-> & -> & -> & Q)|[(-> & ZN & Q)|(-> & d & w1 & L1 & -> & -> & Q)]]).
    + cbn [Z.eqb Z.ltb Z.compare] in H. change ((-1 =? -2)%Z) with false in H. cbv iota in H.
      injection H as <- <- <-. split; [discriminate|]. intros _. split; [|discriminate].
      split; [reflexivity|]. split; [exact OF|]. split; [exact F|].
      exists ds, w. cbn [received]. rewrite app_nil_r. split; [|split; [exact G|exact L]].
      rewrite E. f_equal. change (buffered r) with (obuf (first_input r)). rewrite <- Q. reflexivity.
    + replace (z =? 0)%Z with false in H by lia. replace (z <? 0)%Z with true in H by lia.
      injection H as <- <- <-. split; [destruct (z =? -2)%Z; discriminate|].
      destruct (z =? -2)%Z; intros [].
    + assert (EW : W = (w ++ w1) ++ obuf fi ++ unread s1).
      { rewrite E, <- app_assoc. f_equal. exact Q. }
      destruct d as [|c d0].
      * change (Z.of_N (len [])) with 0%Z in H. cbn [Z.eqb] in H.
        match type of H with (let '(_, _) := deliver ?R n in _) = _ => set (r1 := R) in H end.
        destruct (deliver r1 n) as [o1 r2] eqn:D. injection H as <- <- <-.
        assert (I1 : SInv W got r1 s1).
        { split; [reflexivity|]. split; [exact OF|]. split; [exact F|].
          exists ds, (w ++ w1). split; [exact EW|]. split; [exact G|]. apply lax_close; assumption. }
        destruct (deliver_sinv W got r1 s1 n o1 r2 P I1 D) as (A1 & A2 & A3).
        split; [|auto]. intros ->.
        destruct (deliver_ok r1 n _ r2 P F D) as (_ & _ & _ & _ & _ & _ & [(U & x & Q' & _)|(U & Ho & _)]); discriminate.
      * set (d := c :: d0) in *.
        assert (LP : 0 < len d) by (unfold d, len; cbn [length]; lia).
        replace (Z.of_N (len d) =? 0)%Z with false in H by lia.
        replace (Z.of_N (len d) <? 0)%Z with false in H by lia.
        match type of H with (let '(_, _) := deliver ?R n in _) = _ => set (r1 := R) in H end.
        destruct (deliver r1 n) as [o1 r2] eqn:D. injection H as <- <- <-.
        assert (F1 : Forall (fun b => b <> []) (user_data r1)).
        { unfold r1. cbn [user_data]. apply Forall_app. split; [exact F|]. repeat constructor. discriminate. }
        assert (I1 : SInv W got r1 s1).
        { split; [reflexivity|]. split; [exact OF|]. split; [exact F1|].
          exists (ds ++ [d]), (w ++ w1). split; [exact EW|]. split.
          - unfold r1. cbn [user_data]. rewrite !concat_app, app_assoc, G. reflexivity.
          - apply lax_open_snoc; [exact L|exact L1|discriminate]. }
        destruct (deliver_sinv W got r1 s1 n o1 r2 P I1 D) as (A1 & A2 & A3).
        split; [|auto]. intros ->.
        destruct (deliver_ok r1 n _ r2 P F1 D) as (_ & _ & _ & _ & _ & _ & [(U & x & Q' & _)|(U & Ho & _)]); discriminate.
Qed.

Lemma received_app : forall a b, received (a ++ b) = received a ++ received b.
Proof.
  induction a as [|o a IH]; intros b; [reflexivity|].
  cbn. destruct o; rewrite ?IH; auto. rewrite app_assoc. reflexivity.
Qed.

Lemma received_cons : forall o os, received (o :: os) = received [o] ++ received os.
Proof. intros. change (o :: os) with ([o] ++ os). apply received_app. Qed.

Lemma consumes_sound : forall W lens got r s os r' s', len W < 2 ^ 31 - 4 ->
  Forall (fun n => 0 < n) lens -> SInv W got r s -> consumes r s lens = (os, r', s') ->
  Forall good os ->
  SInv W (got ++ received os) r' s'
  /\ (In Done os -> read_last_chunk r' = true /\ user_data r' = []).
Proof.
  intros W. induction lens as [|n lens IH]; intros got r s os r' s' LW P I H GD; cbn [consumes] in H.
  - injection H as <- <- <-. cbn [received]. rewrite app_nil_r. split; [exact I|intros []].
  - inversion P as [|? ? P1 P2]; subst.
    destruct (consume r s n) as [[o r1] s1] eqn:C.
    destruct (consumes r1 s1 lens) as [[os1 r2] s2] eqn:CS. injection H as <- <- <-.
    inversion GD as [|? ? G1 G2]; subst.
    destruct (consume_sound W got r s n o r1 s1 LW P1 I C) as [_ Q].
    destruct (Q G1) as [I1 D1].
    destruct (IH (got ++ received [o]) r1 s1 os1 r2 s2 LW P2 I1 CS G2) as [I2 D2].
    rewrite received_cons, app_assoc. split; [exact I2|].
    intros [ED|ID]; [|auto]. subst o. destruct (D1 eq_refl) as [L U].
    (* after the end nothing changes *)
    clear - L U I1 CS P2. destruct I1 as (C & _).
    revert r1 L U C os1 CS. induction lens as [|n lens IH]; intros r1 L U C os1 CS; cbn [consumes] in CS.
    + injection CS as <- <- <-. auto.
    + inversion P2 as [|? ? P3 P4]; subst.
      assert (E : exists pc, consume r1 s1 n = (Done, mkreq (first_input r1) [] true true (content_length r1) (content_length_read r1) pc, s1)).
      { unfold consume. rewrite C, L. unfold deliver. replace (n =? 0) with false by lia.
        rewrite U. cbn [has_data]. unfold nothing. rewrite C, L. eexists. reflexivity. }
      destruct E as [pc E]. rewrite E in CS.
      destruct (consumes _ s1 lens) as [[os2 r3] s3] eqn:CS'. injection CS as <- <- <-.
      eapply IH; [exact P4| | | |exact CS']; reflexivity.
Qed.

(** No overrun, whatever happens in between. *)
Definition BInv (T : N) (r : req) (s : sock) : Prop :=
  chunked r = true /\ ook (first_input r) /\ len (buffered r ++ unread s) < T.

Lemma deliver_first : forall r n o r', deliver r n = (o, r') ->
  first_input r' = first_input r /\ chunked r' = chunked r /\ o <> Overrun.
Proof.
  intros r n o r' H. unfold deliver in H.
  assert (NO : nothing r <> Overrun).
  { unfold nothing. destruct (chunked r), (read_last_chunk r), (content_length_read r =? content_length r)%Z; discriminate. }
  destruct (n =? 0); [injection H as <- <-; repeat split; discriminate|].
  destruct (has_data (user_data r)).
  - destruct (fill n (user_data r)) as [[x ud] e]. destruct (e || (len x =? n)); injection H as <- <-;
      repeat split; (discriminate || exact NO).
  - injection H as <- <-. repeat split. exact NO.
Qed.

Lemma consume_bound : forall T r s n o r' s', T <= 2 ^ 31 - 4 ->
  BInv T r s -> consume r s n = (o, r', s') -> o <> Overrun /\ BInv T r' s'.
Proof.
  intros T r s n o r' s' LT (C & O & L) H.
  unfold consume in H. rewrite C in H.
  assert (FIN : forall r1 s1, chunked r1 = true -> ook (first_input r1) ->
            len (buffered r1 ++ unread s1) < T ->
            (let '(o1, r2) := deliver r1 n in (o1, r2, s1)) = (o, r', s') ->
            o <> Overrun /\ BInv T r' s').
  { intros r1 s1 C1 O1 L1 H1. destruct (deliver r1 n) as [o1 r2] eqn:D. injection H1 as <- <- <-.
    destruct (deliver_first _ _ _ _ D) as (D1 & D2 & D3). split; [exact D3|].
    split; [congruence|]. unfold buffered in *. rewrite D1. split; [exact O1|exact L1]. }
  destruct (read_last_chunk r) eqn:RL; [apply (FIN r s); auto|].
  assert (LW : len (obuf (first_input r) ++ unread s) < 2 ^ 31 - 4).
  { change (obuf (first_input r)) with (buffered r). lia. }
  assert (R := read_chunk_sound _ (user_data r) (payload_complete r) LW (answers s) (first_input r) s
                 eq_refl O eq_refl).
  change (obuf (first_input r)) with (buffered r) in R.
  destruct (read_chunk _ _ _ _ _) as [z bl fi ud pc s1| |];
    [|injection H as <- <- <-; split; [discriminate|repeat split; assumption]|contradiction].
  cbn [sound_result] in R. destruct R as (OF & R).
  assert (LF : len (obuf fi ++ unread s1) < T).
  { destruct R as [(_ & _ & _ & Q)|[(_ & _ & Q)|(_ & d & w & _ & _ & _ & Q)]].
    - rewrite Q. exact L.
    - lia.
    - rewrite Q, len_app in L. lia. }
  destruct (z =? 0)%Z.
  - revert H. apply FIN; [reflexivity|exact OF|exact LF].
  - destruct (z <? 0)%Z.
    + injection H as <- <- <-. split; [destruct (z =? -2)%Z, bl; discriminate|].
      split; [reflexivity|]. split; [exact OF|exact LF].
    + revert H. apply FIN; [reflexivity|exact OF|exact LF].
Qed.

Lemma consumes_bound : forall T lens r s os r' s', T <= 2 ^ 31 - 4 ->
  BInv T r s -> consumes r s lens = (os, r', s') -> ~ In Overrun os /\ BInv T r' s'.
Proof.
  intros T. induction lens as [|n lens IH]; intros r s os r' s' LT I H; cbn [consumes] in H.
  - injection H as <- <- <-. split; [intros []|exact I].
  - destruct (consume r s n) as [[o r1] s1] eqn:C.
    destruct (consumes r1 s1 lens) as [[os1 r2] s2] eqn:CS. injection H as <- <- <-.
    destruct (consume_bound T r s n o r1 s1 LT I C) as [N1 I1].
    destruct (IH r1 s1 os1 r2 s2 LT I1 CS) as [N2 I2].
    split; [intros [Q|Q]; contradiction|exact I2].
Qed.

Lemma start_sinv : forall left s, SInv (left ++ unread s) [] (body_start true 0 left) s.
Proof.
  intros left s. split; [reflexivity|].
  split; [unfold body_start; destruct left; [exact I|apply N.le_refl]|].
  split; [constructor|]. exists [], []. split; [|split; [reflexivity|exact lax_open_nil]].
  replace (buffered (body_start true 0 left)) with left; [reflexivity|]. destruct left; reflexivity.
Qed.
