(** Proofs about the HTTP/1 response writer. *)
From Coq Require Import NArith ZArith List Bool Lia ZifyBool ZifyNat ZifyN.
From Verif Require Import Http1.Model Http1.Spec Http1.Proofs.
Import ListNotations.
Local Open Scope N_scope.

(** ** Chunk headers *)
Fixpoint digits (n : nat) (v : N) : list N :=
  match n with
  | O => []
  | S n' => digits n' (N.shiftr v 4) ++ [hexchar (N.land v 15)]
  end.

Lemma backfill_digits : forall n v acc, backfill n v acc = digits n v ++ acc.
Proof.
  induction n; intros; cbn [backfill digits]; [reflexivity|].
  rewrite IHn, <- app_assoc. reflexivity.
Qed.

Lemma hexchar_digit : forall v, v < 16 -> hexdigit (hexchar v) v.
Proof. intros v H. unfold hexchar, hexdigit. destruct (v <? 10) eqn:E; lia. Qed.

Lemma land15 : forall v, N.land v 15 = v mod 16.
Proof. intros. change 15 with (N.ones 4). rewrite N.land_ones. reflexivity. Qed.
Lemma shr4 : forall v, N.shiftr v 4 = v / 16.
Proof. intros. rewrite N.shiftr_div_pow2. reflexivity. Qed.

Lemma digits_length : forall n v, length (digits n v) = n.
Proof.
  induction n; intros; cbn [digits]; [reflexivity|]. rewrite app_length, IHn. cbn. lia.
Qed.

Lemma digits_hexnum : forall n v, v < 16 ^ N.of_nat (S n) -> hexnum (digits (S n) v) v.
Proof.
  induction n; intros v H.
  - cbn [digits app]. rewrite land15.
    change (16 ^ N.of_nat 1) with 16 in H. rewrite N.mod_small by exact H.
    constructor. apply hexchar_digit. exact H.
  - change (digits (S (S n)) v) with (digits (S n) (N.shiftr v 4) ++ [hexchar (N.land v 15)]).
    assert (E : v = 16 * (N.shiftr v 4) + N.land v 15).
    { rewrite shr4, land15. apply N.div_mod. lia. }
    rewrite E at 3. constructor.
    + apply IHn. rewrite shr4. apply N.div_lt_upper_bound; [lia|].
      rewrite Nat2N.inj_succ, N.pow_succ_r' in H. exact H.
    + apply hexchar_digit. rewrite land15. apply N.mod_lt. lia.
Qed.

Lemma hexlen_loop_bound : forall f v, v < 16 ^ N.of_nat f -> v < 16 ^ N.of_nat (hexlen_loop f v)
  /\ (hexlen_loop f v <= f)%nat.
Proof.
  induction f; intros v H; cbn [hexlen_loop].
  - split; [exact H|lia].
  - destruct (v =? 0) eqn:Z; [split; [cbn; lia|lia]|].
    rewrite Nat2N.inj_succ, N.pow_succ_r' in H.
    destruct (IHf (N.shiftr v 4)) as [A B].
    { rewrite shr4. apply N.div_lt_upper_bound; [lia|exact H]. }
    split; [|lia]. rewrite Nat2N.inj_succ, N.pow_succ_r'.
    rewrite shr4 in *. pose proof (N.div_mod v 16). pose proof (N.mod_lt v 16). lia.
Qed.

Lemma hex_tail : forall s v, hexnum s v -> forall s1, s = 48 :: s1 -> (s1 = [] /\ v = 0) \/ hexnum s1 v.
Proof.
  induction 1; intros s1 E.
  - injection E as -> <-. left. split; [reflexivity|]. unfold hexdigit in H. lia.
  - destruct s as [|a s]; [inversion H; destruct s; discriminate|].
    cbn in E. injection E as -> <-.
    destruct (IHhexnum s eq_refl) as [[-> ->]|H1].
    + right. cbn. constructor. exact H0.
    + right. constructor; assumption.
Qed.

Lemma strip_hex : forall s v t, hexnum s v -> 0 < v ->
  exists s', strip_zeros (s ++ t) = s' ++ t /\ hexnum s' v /\ (length s' <= length s)%nat.
Proof.
  induction s as [|a s IH]; intros v t H P.
  - inversion H. destruct s; discriminate.
  - destruct (N.eq_dec a 48) as [->|NE].
    + destruct (hex_tail _ _ H s eq_refl) as [[-> ->]|H1]; [lia|].
      destruct (IH v t H1 P) as (s' & A & B & C).
      exists s'. cbn [app strip_zeros]. split; [exact A|]. split; [exact B|cbn; lia].
    + exists (a :: s). split; [|split; [exact H|lia]].
      cbn [app]. destruct a as [|p]; [reflexivity|].
      destruct p as [p|p|]; try reflexivity.
      destruct p as [p|p|]; try reflexivity.
      destruct p as [p|p|]; try reflexivity.
      destruct p as [p|p|]; try reflexivity.
      destruct p as [p|p|]; try reflexivity.
      destruct p as [p|p|]; try reflexivity.
      exfalso. apply NE. reflexivity.
Qed.

Lemma process_chunk : forall d, d <> [] -> len d < 2 ^ 31 ->
  exists s, process_output true d = s ++ crlf ++ d ++ crlf
    /\ hexnum s (len d) /\ (length s <= 18)%nat.
Proof.
  intros d ND L. unfold process_output. destruct d as [|c d0]; [congruence|].
  set (d := c :: d0) in *. rewrite backfill_digits, app_nil_r.
  assert (P : 0 < len d) by (unfold d, len; cbn [length]; lia).
  assert (B : len d < 16 ^ N.of_nat (hexlen_loop 16 (len d)) /\ (hexlen_loop 16 (len d) <= 16)%nat).
  { apply hexlen_loop_bound. change (16 ^ N.of_nat 16) with (2 ^ 64). lia. }
  destruct B as [B1 B2].
  assert (H : exists m, hexlen (len d) = S m /\ (S m <= 16)%nat /\ len d < 16 ^ N.of_nat (S m)).
  { unfold hexlen. destruct (hexlen_loop 16 (len d)) as [|m]; [cbn in B1; lia|].
    exists m. repeat split; auto. }
  destruct H as (m & -> & M1 & M2).
  destruct (strip_hex (digits (S m) (len d)) (len d) ([13; 10] ++ d ++ [13; 10])
              (digits_hexnum m (len d) M2) P) as (s' & A & H1 & H2).
  exists s'. split; [exact A|]. split; [exact H1|]. rewrite digits_length in H2. lia.
Qed.

Lemma process_plain : forall d, process_output false d = d.
Proof. intros [|c d]; reflexivity. Qed.

Lemma process_nil : forall c d, process_output c d = [] -> d = [].
Proof.
  intros c d H. destruct d as [|x d]; [reflexivity|]. exfalso. unfold process_output in H.
  destruct c; [|discriminate].
  assert (A : forall l t, t <> [] -> (forall y, In y [48] -> ~ In y (firstn 1 t)) -> strip_zeros (l ++ t) <> []).
  { induction l as [|y l IH]; intros t T F.
    - cbn [app]. destruct t as [|t0 t]; [congruence|].
      assert (t0 <> 48). { intros ->. apply (F 48); left; reflexivity. }
      intros Q. destruct t0 as [|p]; [discriminate|].
      destruct p as [p|p|]; try discriminate.
      destruct p as [p|p|]; try discriminate.
      destruct p as [p|p|]; try discriminate.
      destruct p as [p|p|]; try discriminate.
      destruct p as [p|p|]; try discriminate.
      destruct p as [p|p|]; try discriminate. congruence.
    - cbn [app]. intros Q. destruct (N.eq_dec y 48) as [->|NE].
      + cbn [strip_zeros] in Q. revert Q. apply IH; assumption.
      + destruct y as [|p]; [discriminate|].
        destruct p as [p|p|]; try discriminate.
        destruct p as [p|p|]; try discriminate.
        destruct p as [p|p|]; try discriminate.
        destruct p as [p|p|]; try discriminate.
        destruct p as [p|p|]; try discriminate.
        destruct p as [p|p|]; try discriminate. congruence. }
  revert H. apply A; [discriminate|]. intros y [<-|[]] [Q|[]]. discriminate.
Qed.

(** ** The chains *)
Definition cat (l : list oblk) : list N := concat (map odata l).
Definition cutn (n : N) (l : list N) : list N := skipn (N.to_nat n) l.
Definition pending (r : res) : list N := cutn (raw_offset r) (cat (leader r ++ raw r)).

Definition offok (chain : list oblk) (off : N) : Prop :=
  match chain with [] => off = 0 | b :: _ => off <= len (odata b) end.
Definition last_id (l : list oblk) : option N :=
  match rev l with [] => None | b :: _ => Some (oid b) end.

Definition WI (r : res) : Prop :=
  Forall (fun b => oid b = 0) (leader r) /\ Forall (fun b => 1 <= oid b < next_id r) (raw r)
  /\ NoDup (map oid (raw r)) /\ raw_last r = last_id (raw r) /\ 1 <= next_id r
  /\ offok (leader r ++ raw r) (raw_offset r).

Lemma last_id_cons : forall b l, l <> [] -> last_id (b :: l) = last_id l.
Proof.
  intros b l H. unfold last_id. cbn [rev].
  destruct (rev l) as [|x y] eqn:E; [|reflexivity].
  exfalso. apply H. apply (f_equal (@rev _)) in E. rewrite rev_involutive in E. exact E.
Qed.

Lemma last_id_in : forall l i, last_id l = Some i -> exists b, In b l /\ oid b = i.
Proof.
  intros l i H. unfold last_id in H. destruct (rev l) as [|b t] eqn:E; [discriminate|].
  injection H as <-. exists b. split; [|reflexivity]. apply in_rev. rewrite E. left. reflexivity.
Qed.

Lemma raw_assert_last : forall l, raw_assert l (last_id l) = true.
Proof.
  intros l. destruct l as [|b l]; [reflexivity|]. unfold raw_assert, last_id.
  destruct (rev (b :: l)) eqn:E; [|reflexivity].
  cbn in E. destruct (rev l); discriminate.
Qed.

Lemma cutn_cons : forall b l off, off = len (odata b) -> cutn off (cat (b :: l)) = cat l.
Proof.
  intros b l off ->. unfold cutn, cat, len. cbn [map concat]. rewrite Nat2N.id.
  rewrite skipn_app, skipn_all, Nat.sub_diag. reflexivity.
Qed.

Lemma cutn_0 : forall l, cutn 0 l = l.
Proof. reflexivity. Qed.

Lemma drop_leader : forall rw ld off, Forall (fun b => oid b = 0) ld -> ld <> [] ->
  Forall (fun b => 1 <= oid b) rw -> offok ld off ->
  exists ld' off', drop_written ld false rw (last_id rw) off = OK (ld', last_id rw, off')
    /\ cutn off (cat (ld ++ rw)) = cutn off' (cat (ld' ++ rw))
    /\ Forall (fun b => oid b = 0) ld'
    /\ match ld' with [] => off' = 0 | b :: _ => off' < len (odata b) end.
Proof.
  intros rw. induction ld as [|b ld IH]; intros off Z NE R O; [congruence|].
  cbn [drop_written]. inversion Z as [|? ? Z1 Z2]; subst. cbn [offok] in O.
  destruct (len (odata b) <=? off) eqn:E.
  - assert (RL : match last_id rw with Some i => if i =? oid b then None else last_id rw | None => None end
                 = last_id rw).
    { destruct (last_id rw) as [i|] eqn:L; [|reflexivity].
      destruct (last_id_in _ _ L) as (x & X & <-). rewrite Forall_forall in R. specialize (R x X).
      replace (oid x =? oid b) with false by lia. reflexivity. }
    rewrite RL, raw_assert_last.
    destruct ld as [|b' ld'].
    + cbn [drop_written]. exists [], 0. split; [reflexivity|].
      split; [cbn [app]; rewrite cutn_cons by lia; reflexivity|]. split; [constructor|reflexivity].
    + destruct (IH 0 Z2) as (l1 & o1 & A & B & C & D); [discriminate|exact R|cbn; lia|].
      exists l1, o1. split; [exact A|]. split; [|split; [exact C|exact D]].
      rewrite <- B. change ((b :: b' :: ld') ++ rw) with (b :: ((b' :: ld') ++ rw)).
      rewrite cutn_cons by lia. reflexivity.
  - exists (b :: ld), off. split; [reflexivity|]. split; [reflexivity|]. split; [exact Z|lia].
Qed.

Lemma drop_raw : forall rw0 rw off, Forall (fun b => 1 <= oid b) rw -> NoDup (map oid rw) ->
  offok rw off ->
  exists rw' off', drop_written rw true rw0 (last_id rw) off = OK (rw', last_id rw', off')
    /\ cutn off (cat rw) = cutn off' (cat rw')
    /\ (exists pre, rw = pre ++ rw')
    /\ match rw' with [] => off' = 0 | b :: _ => off' < len (odata b) end.
Proof.
  intros rw0. induction rw as [|b rw IH]; intros off R ND O.
  - exists [], off. split; [reflexivity|]. split; [reflexivity|]. split; [exists []; reflexivity|exact O].
  - cbn [drop_written]. inversion R as [|? ? R1 R2]; subst. cbn [map] in ND.
    inversion ND as [|? ? N1 N2]; subst. cbn [offok] in O.
    destruct (len (odata b) <=? off) eqn:E.
    + assert (RL : match last_id (b :: rw) with Some i => if i =? oid b then None else last_id (b :: rw) | None => None end
                   = last_id rw).
      { destruct rw as [|b' rw'].
        - unfold last_id. cbn. rewrite N.eqb_refl. reflexivity.
        - rewrite last_id_cons by discriminate.
          destruct (last_id (b' :: rw')) as [i|] eqn:L; [|reflexivity].
          destruct (last_id_in _ _ L) as (x & X & <-).
          replace (oid x =? oid b) with false; [reflexivity|].
          symmetry. apply N.eqb_neq. intros Q. apply N1. rewrite <- Q. apply in_map. exact X. }
      rewrite RL, raw_assert_last.
      destruct (IH 0 R2 N2) as (l1 & o1 & A & B & (pre & C) & D).
      { destruct rw; [reflexivity|cbn; lia]. }
      exists l1, o1. split; [exact A|]. split; [rewrite cutn_cons by lia; exact B|].
      split; [exists (b :: pre); cbn; rewrite C; reflexivity|exact D].
    + exists (b :: rw), off. split; [reflexivity|]. split; [reflexivity|].
      split; [exists []; reflexivity|lia].
Qed.

Lemma nodup_app_r : forall A (a b : list A), NoDup (a ++ b) -> NoDup b.
Proof. induction a; intros b H; [exact H|]. inversion H; subst. auto. Qed.

(** Fields that writing does not touch. *)
Definition same_rest (r r' : res) : Prop :=
  output r' = output r /\ chain_bytes r' = chain_bytes r /\ opt_chunked r' = opt_chunked r
  /\ opt_close r' = opt_close r /\ started r' = started r /\ closed r' = closed r
  /\ float_trigger r' = float_trigger r /\ max_write r' = max_write r /\ conn r' = conn r
  /\ next_id r' = next_id r.

Lemma same_rest_refl : forall r, same_rest r r.
Proof. intros. repeat split. Qed.
Lemma same_rest_trans : forall a b c, same_rest a b -> same_rest b c -> same_rest a c.
Proof. intros a b c H1 H2. unfold same_rest in *. intuition congruence. Qed.

Lemma choose_ok : forall r, WI r ->
  exists r1, choose_bucket r = OK r1 /\ WI r1 /\ same_rest r r1 /\ pending r1 = pending r
    /\ sent r1 = sent r /\ complete r1 = complete r /\ in_error r1 = in_error r
    /\ can_still_write r1 = can_still_write r /\ bytes_written r1 = bytes_written r
    /\ (leader r = [] -> leader r1 = []) /\ (raw r = [] -> raw r1 = [])
    /\ match bucket r1 with
       | None => leader r1 = [] /\ raw r1 = []
       | Some b => raw_offset r1 < len (odata b)
                   /\ exists t, leader r1 ++ raw r1 = b :: t
       end.
Proof.
  intros r (W1 & W2 & W3 & W4 & W5 & W6). unfold choose_bucket.
  assert (G1 : Forall (fun b => 1 <= oid b) (raw r)).
  { eapply Forall_impl; [|exact W2]. cbv beta. intros b Hb. lia. }
  rewrite W4.
  assert (LD : exists ld off, drop_written (leader r) false (raw r) (last_id (raw r)) (raw_offset r)
                 = OK (ld, last_id (raw r), off)
               /\ pending r = cutn off (cat (ld ++ raw r))
               /\ Forall (fun b => oid b = 0) ld
               /\ (leader r = [] -> ld = [])
               /\ match ld with [] => offok (raw r) off | b :: _ => off < len (odata b) end).
  { destruct (leader r) as [|b l] eqn:E.
    - exists [], (raw_offset r). split; [reflexivity|]. split; [unfold pending; rewrite E; reflexivity|].
      split; [constructor|]. split; [reflexivity|exact W6].
    - destruct (drop_leader (raw r) (b :: l) (raw_offset r)) as (ld & off & A & B & C & D);
        [exact W1|discriminate|exact G1|exact W6|].
      exists ld, off. split; [exact A|]. split; [unfold pending; rewrite E; exact B|].
      split; [exact C|]. split; [discriminate|]. destruct ld; [|exact D]. subst off. destruct (raw r); [reflexivity|cbn; lia]. }
  destruct LD as (ld & off & -> & P & Z & LE & M).
  destruct ld as [|b ld].
  - destruct (drop_raw (raw r) (raw r) off G1 W3 M) as (rw & off' & -> & B & (pre & C) & D).
    eexists. split; [reflexivity|].
    split. { split; [constructor|]. cbn [raw set_chains leader raw_last next_id raw_offset app].
      split; [rewrite C in W2; apply Forall_app in W2; tauto|].
      split; [rewrite C, map_app in W3; apply nodup_app_r in W3; exact W3|].
      split; [reflexivity|]. split; [exact W5|]. destruct rw; [exact D|cbn; lia]. }
    split; [repeat split|].
    split; [unfold pending at 1; cbn [set_chains raw_offset leader raw app]; rewrite P, <- B; reflexivity|].
    do 5 (split; [reflexivity|]).
    split; [reflexivity|].
    split. { intros RE. rewrite RE in C. cbn [raw set_chains]. symmetry in C. apply app_eq_nil in C. tauto. }
    unfold bucket. cbn [set_chains leader raw raw_offset].
    destruct rw as [|b rw]; [split; reflexivity|]. split; [exact D|exists rw; reflexivity].
  - eexists. split; [reflexivity|].
    split. { split; [exact Z|]. cbn [raw set_chains leader raw_last next_id raw_offset app].
      split; [exact W2|]. split; [exact W3|]. split; [reflexivity|]. split; [exact W5|].
      cbn. lia. }
    split; [repeat split|].
    split; [unfold pending at 1; cbn [set_chains raw_offset leader raw]; rewrite P; reflexivity|].
    do 5 (split; [reflexivity|]).
    split; [exact LE|]. split; [intros RE; exact RE|].
    unfold bucket. cbn [set_chains leader raw raw_offset]. split; [exact M|].
    exists (ld ++ raw r). reflexivity.
Qed.

Definition CI (r : res) : Prop :=
  complete r = true -> in_error r = true \/ (closed r = true /\ leader r = [] /\ raw r = []).

Lemma cutn_app : forall n a b, n <= len a -> cutn n (a ++ b) = cutn n a ++ b.
Proof.
  intros. unfold cutn. rewrite skipn_app.
  replace (N.to_nat n - length a)%nat with 0%nat by (unfold len in H; lia). reflexivity.
Qed.

Lemma skipn_add : forall (A : Type) (l : list A) a b, skipn (a + b) l = skipn b (skipn a l).
Proof. induction l; intros [|a0] b; cbn; auto. destruct b; reflexivity. Qed.


Lemma perform_eq : forall il ans r tl, perform_write il ans r tl =
  if negb (conn r) || in_error r then OK ((-1)%Z, r, ans)
  else
    match choose_bucket r with
    | Crash => Crash
    | OK r1 =>
        match bucket r1 with
        | None =>
            OK (if closed r1 && (tl <=? 0)%Z then (-1)%Z else tl,
                set_status r1 (started r1) (closed r1) (closed r1 || complete r1)
                           (in_error r1), ans)
        | Some b =>
            if il && (can_still_write r1 =? 0)%Z then OK (tl, r1, ans)
            else
              let avail := len (odata b) - raw_offset r1 in
              let attempt := if (0 <=? max_write r1)%Z
                             then N.min avail (Z.to_N (max_write r1)) else avail in
              match ans with
              | [] => OK (tl, r1, [])
              | Full :: ans' => OK (tl, r1, ans')
              | Broken :: ans' =>
                  OK ((-1)%Z, set_status r1 (started r1) (closed r1) true true, ans')
              | Took n :: ans' =>
                  let k := N.min n attempt in
                  let csw := if (0 <? can_still_write r1)%Z
                             then Z.max 0 (can_still_write r1 - Z.of_N k)
                             else can_still_write r1 in
                  perform_write il ans'
                    (set_sent r1 (raw_offset r1 + k) (bytes_written r1 + k) csw
                       (firstn (N.to_nat k) (skipn (N.to_nat (raw_offset r1)) (odata b))))
                    (tl + Z.of_N k)%Z
              end
        end
    end.
Proof. intros il [|a ans] r tl; reflexivity. Qed.

Lemma WI_status : forall r a b c d, WI r -> WI (set_status r a b c d).
Proof. intros r a b c d H. exact H. Qed.

Lemma took_ok : forall r1 b t k csw, WI r1 -> leader r1 ++ raw r1 = b :: t ->
  k <= len (odata b) - raw_offset r1 -> raw_offset r1 < len (odata b) ->
  bytes_written r1 = len (sent r1) ->
  let r2 := set_sent r1 (raw_offset r1 + k) (bytes_written r1 + k) csw
              (firstn (N.to_nat k) (skipn (N.to_nat (raw_offset r1)) (odata b))) in
  WI r2 /\ same_rest r1 r2 /\ sent r2 ++ pending r2 = sent r1 ++ pending r1
  /\ bytes_written r2 = len (sent r2) /\ leader r2 = leader r1 /\ raw r2 = raw r1
  /\ complete r2 = complete r1 /\ in_error r2 = in_error r1
  /\ len (pending r2) + k = len (pending r1).
Proof.
  intros r1 b t k csw (W1 & W2 & W3 & W4 & W5 & W6) L K O BW r2.
  assert (P2 : pending r2 = cutn (raw_offset r1 + k) (cat (b :: t))).
  { unfold pending, r2. cbn [set_sent raw_offset leader raw]. rewrite L. reflexivity. }
  assert (P1 : pending r1 = cutn (raw_offset r1) (cat (b :: t))).
  { unfold pending. rewrite L. reflexivity. }
  assert (X : cutn (raw_offset r1) (cat (b :: t))
              = firstn (N.to_nat k) (skipn (N.to_nat (raw_offset r1)) (odata b))
                ++ cutn (raw_offset r1 + k) (cat (b :: t))).
  { change (cat (b :: t)) with (odata b ++ cat t). rewrite !cutn_app by lia.
    rewrite app_assoc. f_equal. unfold cutn.
    rewrite N2Nat.inj_add, skipn_add, firstn_skipn. reflexivity. }
  assert (KL : len (firstn (N.to_nat k) (skipn (N.to_nat (raw_offset r1)) (odata b))) = k).
  { unfold len in *. rewrite firstn_length, skipn_length. lia. }
  split. { unfold r2. split; [exact W1|]. split; [exact W2|]. split; [exact W3|].
    split; [exact W4|]. split; [exact W5|].
    cbn [set_sent leader raw raw_offset]. rewrite L. cbn [offok]. lia. }
  split; [repeat split|].
  split. { rewrite P2, P1, X. unfold r2. cbn [set_sent sent]. rewrite app_assoc. reflexivity. }
  split. { unfold r2. cbn [set_sent sent bytes_written]. rewrite BW.
    unfold len in *. rewrite app_length, Nat2N.inj_add, KL. reflexivity. }
  do 4 (split; [reflexivity|]).
  rewrite P2, P1, X. unfold len in *. rewrite app_length, Nat2N.inj_add, KL. lia.
Qed.

Definition PR (r r' : res) : Prop :=
  WI r' /\ CI r' /\ same_rest r r'
  /\ sent r' ++ pending r' = sent r ++ pending r
  /\ bytes_written r' = len (sent r')
  /\ (in_error r = true -> in_error r' = true)
  /\ (leader r = [] -> leader r' = []) /\ (raw r = [] -> raw r' = []).

Lemma PR_trans : forall a b c, PR a b -> PR b c -> PR a c.
Proof.
  intros a b c (_ & _ & A3 & A4 & _ & A6 & A7 & A8) (B1 & B2 & B3 & B4 & B5 & B6 & B7 & B8).
  split; [exact B1|]. split; [exact B2|]. split; [exact (same_rest_trans _ _ _ A3 B3)|].
  split; [congruence|]. split; [exact B5|]. repeat split; auto.
Qed.

Lemma CI_same : forall r r1, CI r -> closed r1 = closed r -> complete r1 = complete r ->
  in_error r1 = in_error r -> (leader r = [] -> leader r1 = []) -> (raw r = [] -> raw r1 = []) -> CI r1.
Proof.
  intros r r1 C E1 E2 E3 E4 E5 H. rewrite E2 in H. destruct (C H) as [I|(A & B & D)].
  - left. congruence.
  - right. split; [congruence|]. split; auto.
Qed.

Lemma perform_ok : forall il ans r tl, WI r -> CI r -> bytes_written r = len (sent r) ->
  exists rv r' ans', perform_write il ans r tl = OK (rv, r', ans') /\ PR r r'.
Proof.
  intros il ans.
  induction ans as [|a ans IH]; intros r tl W C BW; rewrite perform_eq;
  (destruct (negb (conn r) || in_error r) eqn:E;
    [eexists _, _, _; split; [reflexivity|]; unfold PR; split; [exact W|]; split; [exact C|];
     split; [apply same_rest_refl|]; split; [reflexivity|]; split; [exact BW|]; repeat split; auto|]);
  apply orb_false_elim in E; destruct E as [_ ER];
  destruct (choose_ok r W) as (r1 & -> & W1 & S1 & P1 & Q1 & Q2 & Q3 & Q4 & Q5 & Q6 & Q7 & B);
  pose proof S1 as (_ & _ & _ & _ & _ & SC & _ & SM & _);
  (assert (C1 : CI r1) by (apply (CI_same r); auto));
  (assert (PR1 : PR r r1) by (split; [exact W1|]; split; [exact C1|]; split; [exact S1|];
     split; [congruence|]; split; [congruence|]; split; [congruence|]; split; assumption));
  destruct (bucket r1) as [b|];
  [|eexists _, _, _; split; [reflexivity|]; apply (PR_trans r r1); [exact PR1|];
     destruct B as [B1 B2]; split; [apply WI_status; exact W1|];
     split; [intros H; cbn [set_status complete closed leader raw in_error] in *;
             destruct (closed r1) eqn:CL; [right; split; [reflexivity|split; assumption]|];
             cbn [orb] in H; destruct (C1 H) as [I|(X & _)]; [left; exact I|congruence]|];
     split; [repeat split|]; split; [reflexivity|]; split; [cbn [set_status bytes_written sent]; congruence|];
     repeat split; auto
  | |eexists _, _, _; split; [reflexivity|]; apply (PR_trans r r1); [exact PR1|];
     destruct B as [B1 B2]; split; [apply WI_status; exact W1|];
     split; [intros H; cbn [set_status complete closed leader raw in_error] in *;
             destruct (closed r1) eqn:CL; [right; split; [reflexivity|split; assumption]|];
             cbn [orb] in H; destruct (C1 H) as [I|(X & _)]; [left; exact I|congruence]|];
     split; [repeat split|]; split; [reflexivity|]; split; [cbn [set_status bytes_written sent]; congruence|];
     repeat split; auto].
  - destruct (il && (can_still_write r1 =? 0)%Z); eexists _, _, _; (split; [reflexivity|exact PR1]).
  - destruct (il && (can_still_write r1 =? 0)%Z); [eexists _, _, _; (split; [reflexivity|exact PR1])|].
    cbv zeta. destruct a as [n| |].
    + destruct B as (B1 & t & B2).
      set (k := N.min n _).
      assert (K : k <= len (odata b) - raw_offset r1).
      { subst k. destruct (0 <=? max_write r1)%Z; lia. }
      set (csw := if (0 <? can_still_write r1)%Z then _ else _).
      destruct (took_ok r1 b t k csw W1 B2 K B1) as (X1 & X2 & X3 & X4 & X5 & X6 & X7 & X8 & _); [congruence|].
      set (r2 := set_sent _ _ _ _ _) in *.
      assert (C2 : CI r2).
      { apply (CI_same r1); auto; try congruence. }
      destruct (IH r2 (tl + Z.of_N k)%Z X1 C2 X4) as (rv & r' & ans' & -> & PR3).
      exists rv, r', ans'. split; [reflexivity|]. apply (PR_trans r r1); [exact PR1|].
      apply (PR_trans r1 r2); [|exact PR3].
      split; [exact X1|]. split; [exact C2|]. split; [exact X2|]. split; [exact X3|]. split; [exact X4|].
      split; [congruence|]. split; congruence.
    + eexists _, _, _; (split; [reflexivity|exact PR1]).
    + eexists _, _, _; split; [reflexivity|]. apply (PR_trans r r1); [exact PR1|].
      split; [apply WI_status; exact W1|]. split; [intros _; left; reflexivity|].
      split; [repeat split|]. split; [reflexivity|].
      split; [cbn [set_status bytes_written sent]; congruence|]. repeat split; auto.
Qed.

(** ** Encoding *)
Definition fits (b : oblk) : Prop := len (odata b) <= oallocd b < 2 ^ 31.

Lemma link_ok : forall r d, WI r -> exists r', link_raw r d = OK r' /\ WI r'
  /\ cat (leader r' ++ raw r') = cat (leader r ++ raw r) ++ d
  /\ raw_offset r' = raw_offset r /\ sent r' = sent r /\ leader r' = leader r
  /\ raw_offset r' <= len (cat (leader r ++ raw r))
  /\ output r' = output r /\ chain_bytes r' = chain_bytes r /\ opt_chunked r' = opt_chunked r
  /\ opt_close r' = opt_close r /\ started r' = started r /\ closed r' = closed r
  /\ complete r' = complete r /\ in_error r' = in_error r
  /\ float_trigger r' = float_trigger r /\ max_write r' = max_write r /\ conn r' = conn r
  /\ bytes_written r' = bytes_written r /\ can_still_write r' = can_still_write r.
Proof.
  intros r d (W1 & W2 & W3 & W4 & W5 & W6).
  assert (OL : raw_offset r <= len (cat (leader r ++ raw r))).
  { destruct (leader r ++ raw r) as [|b t]; cbn [offok] in W6; [lia|].
    change (cat (b :: t)) with (odata b ++ cat t). unfold len in *. rewrite app_length. lia. }
  assert (G : exists r', link_raw r d = OK r' /\
    r' = mkres (output r) (chain_bytes r) (raw r ++ [mko (next_id r) d (len d)]) (Some (next_id r))
                     (raw_offset r) (leader r) (opt_chunked r) (opt_close r) (started r)
                     (closed r) (complete r) (in_error r) (bytes_written r)
                     (float_trigger r) (max_write r) (can_still_write r) (conn r)
                     (next_id r + 1) (sent r)).
  { unfold link_raw. rewrite W4. unfold last_id.
    destruct (rev (raw r)) as [|b t] eqn:E.
    - assert (raw r = []) as ->.
      { apply (f_equal (@rev _)) in E. rewrite rev_involutive in E. exact E. }
      eexists. split; reflexivity.
    - rewrite N.eqb_refl. eexists. split; reflexivity. }
  destruct G as (r' & -> & ->). eexists. split; [reflexivity|].
  split.
  { split; [exact W1|]. cbn [raw next_id raw_last leader raw_offset].
    split. { apply Forall_app. split; [eapply Forall_impl; [|exact W2]; cbv beta; intros; lia|].
      constructor; [cbn; lia|constructor]. }
    split. { rewrite map_app. apply NoDup_rev in W3. rewrite <- (rev_involutive (map oid (raw r) ++ _)).
      apply NoDup_rev. rewrite rev_app_distr. cbn. constructor; [|exact W3].
      rewrite <- in_rev, in_map_iff. intros (x & X & Y). rewrite Forall_forall in W2.
      specialize (W2 x Y). lia. }
    split. { unfold last_id. rewrite rev_app_distr. reflexivity. }
    split; [lia|].
    rewrite app_assoc. destruct (leader r ++ raw r) as [|b t]; cbn [offok app] in *; lia. }
  split. { cbn [leader raw]. rewrite app_assoc. unfold cat. rewrite map_app, concat_app. cbn.
    rewrite app_nil_r. reflexivity. }
  cbn [raw_offset sent leader output chain_bytes opt_chunked opt_close started closed complete
       in_error float_trigger max_write conn bytes_written can_still_write].
  repeat (split; [reflexivity || exact OL|]). reflexivity.
Qed.

Definition encode (c : bool) (d : list N) : list N := process_output c d.

(** Everything but the chains. *)
Definition same_flags (r r' : res) : Prop :=
  sent r' = sent r /\ leader r' = leader r /\ opt_chunked r' = opt_chunked r
  /\ opt_close r' = opt_close r /\ started r' = started r /\ closed r' = closed r
  /\ complete r' = complete r /\ in_error r' = in_error r
  /\ float_trigger r' = float_trigger r /\ max_write r' = max_write r /\ conn r' = conn r
  /\ bytes_written r' = bytes_written r /\ can_still_write r' = can_still_write r.

Lemma encode_ok : forall o r, WI r -> Forall fits o -> exists r',
  encode_blocks o r = OK r' /\ WI r' /\ same_flags r r'
  /\ pending r' = pending r ++ concat (map (fun b => process_output (opt_chunked r) (odata b)) o).
Proof.
  induction o as [|b o IH]; intros r W F.
  - exists r. split; [reflexivity|]. split; [exact W|]. split; [repeat split|].
    cbn. rewrite app_nil_r. reflexivity.
  - inversion F as [|? ? F1 F2]; subst. cbn [encode_blocks map concat].
    replace (2 ^ 31 <=? len (odata b)) with false by (unfold fits in F1; lia).
    destruct (process_output (opt_chunked r) (odata b)) as [|c d] eqn:E.
    + destruct (IH r W F2) as (r' & A & B & C & D). exists r'. auto.
    + rewrite <- E. set (d' := process_output (opt_chunked r) (odata b)) in *.
      replace (c :: d) with d' in * by exact E.
      destruct (link_ok r d' W) as (r1 & -> & W1 & L1 & L2 & L3 & L4 & L5 & L6 & L7 & L8 & L9 & L10 & L11 & L12 & L13 & L14 & L15 & L16 & L17 & L18).
      destruct (IH r1 W1 F2) as (r' & A & B & C & D).
      exists r'. split; [exact A|]. split; [exact B|].
      split; [unfold same_flags in *; intuition congruence|].
      rewrite D, L8, app_assoc. f_equal.
      unfold pending. rewrite L1, L2. apply cutn_app. congruence.
Qed.

(** The body in pieces. *)
Lemma pieces : forall c o, Forall fits o ->
  exists ds, concat ds = cat o
    /\ (c = true -> chunk_seq ds (concat (map (fun b => process_output c (odata b)) o)))
    /\ (c = false -> concat (map (fun b => process_output c (odata b)) o) = concat ds).
Proof.
  intros c. induction o as [|b o IH]; intros F.
  - exists []. split; [reflexivity|]. split; [intros; constructor|reflexivity].
  - inversion F as [|? ? F1 F2]; subst. destruct (IH F2) as (ds & A & B & C).
    destruct (odata b) as [|x d] eqn:E.
    + exists ds. unfold cat in *. cbn [map concat]. rewrite E. cbn [process_output app]. auto.
    + exists ((x :: d) :: ds). unfold cat in *. cbn [map concat]. rewrite E.
      split; [rewrite A; reflexivity|]. split.
      * intros ->. destruct (process_chunk (x :: d)) as (s & P1 & P2 & P3);
          [discriminate|unfold fits in F1; rewrite E in F1; lia|].
        rewrite P1, <- !app_assoc. constructor; auto. discriminate.
        unfold fits in F1. rewrite E in F1. unfold len in F1. lia.
      * intros ->. rewrite process_plain, C by reflexivity. reflexivity.
Qed.

Lemma chunk_seq_app : forall ds w ds' w', chunk_seq ds w -> chunk_seq ds' w' ->
  chunk_seq (ds ++ ds') (w ++ w').
Proof.
  induction 1; intros H'; [exact H'|].
  rewrite <- !app_assoc. cbn [app]. constructor; auto.
Qed.

Definition body_wire (c : bool) (ds : list (list N)) (w : list N) : Prop :=
  if c then chunk_seq ds w else w = concat ds.
Definition tail_of (c : bool) : list N := if c then [48; 13; 10; 13; 10] else [].

(** ** The invariant of a response *)
Definition Inv (hdr : list (list N)) (pre acc : list N) (r : res) : Prop :=
  WI r /\ CI r /\ bytes_written r = len (sent r)
  /\ Forall fits (output r)
  /\ (closed r = true -> started r = true /\ output r = [])
  /\ (started r = false -> leader r = [] /\ raw r = [])
  /\ exists ds w, body_wire (opt_chunked r) ds w
     /\ acc = concat ds ++ cat (output r)
     /\ (started r = false -> w = [] /\ ds = [])
     /\ sent r ++ pending r = pre ++ (if started r then concat hdr else []) ++ w
                              ++ tail_of (opt_chunked r && closed r).

Lemma Inv_PR : forall hdr pre acc r r', Inv hdr pre acc r -> PR r r' -> Inv hdr pre acc r'.
Proof.
  intros hdr pre acc r r' (I1 & I2 & I3 & I4 & I5 & I6 & ds & w & I7 & I8 & I9 & I10)
    (P1 & P2 & P3 & P4 & P5 & P6 & P7 & P8).
  destruct P3 as (S1 & S2 & S3 & S4 & S5 & S6 & S7 & S8 & S9 & S10).
  split; [exact P1|]. split; [exact P2|]. split; [exact P5|].
  rewrite S1, S5, S6, S3. split; [exact I4|]. split; [exact I5|].
  split. { intros H. destruct (I6 H). split; auto. }
  exists ds, w. rewrite P4. auto.
Qed.

Lemma Inv_perform : forall hdr pre acc il ans r tl, Inv hdr pre acc r ->
  exists rv r' ans', perform_write il ans r tl = OK (rv, r', ans') /\ Inv hdr pre acc r' /\ PR r r'.
Proof.
  intros hdr pre acc il ans r tl I. pose proof I as (I1 & I2 & I3 & _).
  destruct (perform_ok il ans r tl I1 I2 I3) as (rv & r' & ans' & A & B).
  exists rv, r', ans'. split; [exact A|]. split; [exact (Inv_PR _ _ _ _ _ I B)|exact B].
Qed.

Lemma cat_hdr : forall hdr, cat (map (fun d => mko 0 d (len d)) hdr) = concat hdr.
Proof. intros. unfold cat. rewrite map_map. cbn [odata]. rewrite map_id. reflexivity. Qed.

Lemma cat_app : forall a b, cat (a ++ b) = cat a ++ cat b.
Proof. intros. unfold cat. rewrite map_app, concat_app. reflexivity. Qed.

(** Starting the response, encoding, closing: what a flush does before it
    writes. *)
Definition ready (hdr : list (list N)) (final : bool) (r : res) : run res :=
  let r1 :=
      if started r then OK r
      else match leader r with
           | _ :: _ => Crash
           | [] => OK (set_status (set_chains r (map (fun d => mko 0 d (len d)) hdr)
                                              (raw r) (raw_last r) (raw_offset r))
                                  true (closed r) (complete r) (in_error r))
           end in
    match r1 with
    | Crash => Crash
    | OK r1 =>
        match encode_output_raw r1 with
        | Crash => Crash
        | OK r2 =>
              if final then
                let r2' := set_status r2 (started r2) true (complete r2) (in_error r2) in
                if opt_chunked r then link_raw r2' [48; 13; 10; 13; 10] else OK r2'
              else OK r2
        end
    end.

Lemma flush_ready : forall il hdr final ans r, response_flush il hdr final ans r =
  if closed r then OK (false, r, ans)
  else match ready hdr final r with
       | Crash => Crash
       | OK r3 => match perform_write il ans r3 0 with
                | Crash => Crash
                | OK (rv, r4, ans') => OK ((0 <=? rv)%Z && conn r4, r4, ans')
                end
       end.
Proof.
  intros. unfold response_flush, ready. destruct (closed r); [reflexivity|].
  destruct (started r); [|destruct (leader r); [|reflexivity]];
    destruct (encode_output_raw _); reflexivity.
Qed.

Lemma ready_ok : forall hdr final pre acc r, Inv hdr pre acc r -> closed r = false ->
  exists r3, ready hdr final r = OK r3 /\ Inv hdr pre acc r3
    /\ started r3 = true /\ output r3 = [] /\ closed r3 = final
    /\ sent r3 = sent r /\ in_error r3 = in_error r /\ conn r3 = conn r
    /\ max_write r3 = max_write r /\ opt_chunked r3 = opt_chunked r
    /\ can_still_write r3 = can_still_write r.
Proof.
  intros hdr final pre acc r (I1 & I2 & I3 & I4 & I5 & I6 & ds & w & I7 & I8 & I9 & I10) CL.
  assert (NC : complete r = true -> in_error r = true).
  { intros H. destruct (I2 H) as [X|(X & _)]; [exact X|congruence]. }
  unfold ready.
  set (R1 := if started r then OK r else _).
  assert (H1 : exists r1, R1 = OK r1 /\ WI r1 /\ started r1 = true /\ output r1 = output r
     /\ closed r1 = false /\ sent r1 = sent r /\ in_error r1 = in_error r /\ conn r1 = conn r
     /\ max_write r1 = max_write r /\ opt_chunked r1 = opt_chunked r /\ complete r1 = complete r
     /\ bytes_written r1 = bytes_written r /\ can_still_write r1 = can_still_write r
     /\ sent r1 ++ pending r1 = pre ++ concat hdr ++ w).
  { subst R1. rewrite CL in I10. rewrite andb_false_r in I10. cbn [tail_of] in I10. rewrite app_nil_r in I10.
    destruct (started r) eqn:ST.
    - exists r. split; [reflexivity|]. split; [exact I1|]. rewrite CL.
      repeat (split; [reflexivity || assumption|]). exact I10.
    - destruct (I6 eq_refl) as [L R]. rewrite L. eexists. split; [reflexivity|].
      destruct I1 as (W1 & W2 & W3 & W4 & W5 & W6). rewrite L, R in W6. cbn [app offok] in W6.
      destruct (I9 eq_refl) as [-> ->].
      split. { split; [|split; [exact W2|]].
        - cbn [set_status set_chains leader]. apply Forall_forall. intros b B.
          apply in_map_iff in B. destruct B as (d & <- & _). reflexivity.
        - split; [exact W3|]. split; [exact W4|]. split; [exact W5|].
          cbn [set_status set_chains leader raw raw_offset]. rewrite W6.
          destruct (map _ hdr ++ raw r); [reflexivity|cbn; lia]. }
      cbn [set_status set_chains started output closed sent in_error conn max_write opt_chunked complete
           bytes_written can_still_write].
      rewrite CL. repeat (split; [reflexivity|]).
      unfold pending in *. cbn [set_status set_chains leader raw raw_offset]. rewrite L, R, W6 in *.
      cbn [app cat map concat] in I10. rewrite cutn_0 in *. rewrite app_nil_r in I10. rewrite I10.
      rewrite !app_nil_r, cat_hdr. reflexivity. }
  destruct H1 as (r1 & -> & W1 & A1 & A2 & A3 & A4 & A5 & A6 & A7 & A8 & A9 & A10 & A11 & A12).
  unfold encode_output_raw.
  pose proof W1 as (_ & _ & _ & RL & _ & _). rewrite RL, raw_assert_last.
  destruct (encode_ok (output r1) r1 W1) as (r2 & -> & W2 & SF & PE); [congruence|].
  destruct SF as (B1 & B2 & B3 & B4 & B5 & B6 & B7 & B8 & B9 & B10 & B11 & B12 & B13).
  destruct (pieces (opt_chunked r) (output r) I4) as (ds' & D1 & D2 & D3).
  rewrite A8, A2 in PE.
  set (w' := concat (map _ (output r))) in *.
  assert (BW : body_wire (opt_chunked r) (ds ++ ds') (w ++ w')).
  { unfold body_wire in *. destruct (opt_chunked r).
    - apply chunk_seq_app; auto.
    - rewrite concat_app, I7, D3 by reflexivity. reflexivity. }
  assert (AC : acc = concat (ds ++ ds') ++ cat []).
  { rewrite concat_app, D1, I8. cbn. rewrite app_nil_r. reflexivity. }
  assert (SP : sent r2 ++ pending r2 = pre ++ concat hdr ++ w ++ w').
  { rewrite PE, B1, app_assoc, A12, <- !app_assoc. reflexivity. }
  destruct final.
  - destruct (opt_chunked r) eqn:CH.
    + set (r2' := set_status _ _ _ _ _).
      destruct (link_ok r2' [48; 13; 10; 13; 10]) as (r3 & -> & W3 & L1 & L2 & L3 & L4 & L5 & L6 & L7 & L8 & L9 & L10 & L11 & L12 & L13 & L14 & L15 & L16 & L17 & L18); [exact W2|].
      subst r2'. cbn [set_status set_output leader raw raw_offset sent output chain_bytes opt_chunked opt_close started closed
                      complete in_error float_trigger max_write conn bytes_written can_still_write] in *.
      exists r3. split; [reflexivity|].
      assert (PE3 : pending r3 = pending r2 ++ [48; 13; 10; 13; 10]).
      { unfold pending. rewrite L1. rewrite L2 in *. apply cutn_app. exact L5. }
      split; [|repeat split; congruence].
      split; [exact W3|]. split; [intros H; left; rewrite L13, B8, A5; apply NC; congruence|].
      split; [congruence|]. split; [rewrite L6; constructor|]. split; [intros _; split; congruence|].
      split; [intros H; congruence|].
      exists (ds ++ ds'), (w ++ w'). rewrite L8, B3, A8, L11, L10, B5, A1, L6, L3.
      split; [exact BW|]. split; [exact AC|]. split; [discriminate|].
      rewrite PE3, app_assoc, SP, <- !app_assoc. reflexivity.
    + eexists. split; [reflexivity|].
      cbn [set_status set_output started output closed sent in_error conn max_write opt_chunked can_still_write].
      split; [|repeat split; congruence].
      split; [exact W2|]. split; [intros H; left; cbn [set_status set_output in_error complete] in *; rewrite B8, A5; apply NC; congruence|].
      cbn [set_status set_output bytes_written sent output closed started opt_chunked].
      split; [congruence|]. split; [constructor|]. split; [intros _; split; congruence|].
      split; [intros H; congruence|].
      exists (ds ++ ds'), (w ++ w'). rewrite B3, A8, B5, A1.
      split; [exact BW|]. split; [exact AC|]. split; [discriminate|].
      cbn [andb tail_of]. rewrite app_nil_r, <- SP. reflexivity.
  - eexists. split; [reflexivity|].
    cbn [set_status set_output started output closed sent in_error conn max_write opt_chunked can_still_write].
    split; [|repeat split; congruence].
    split; [exact W2|]. split; [intros H; left; cbn [set_status set_output in_error complete] in *; rewrite B8, A5; apply NC; congruence|].
    cbn [set_status set_output bytes_written sent output closed started opt_chunked].
    split; [congruence|]. split; [constructor|]. split; [intros; congruence|].
    split; [intros H; congruence|].
    exists (ds ++ ds'), (w ++ w'). rewrite B3, A8, B5, A1, B6, A3.
    split; [exact BW|]. split; [exact AC|]. split; [discriminate|].
    rewrite andb_false_r. cbn [tail_of]. rewrite app_nil_r, <- SP. reflexivity.
Qed.

Lemma flush_ok : forall il hdr final ans pre acc r, Inv hdr pre acc r ->
  exists b r' ans', response_flush il hdr final ans r = OK (b, r', ans') /\ Inv hdr pre acc r'
    /\ opt_chunked r' = opt_chunked r.
Proof.
  intros il hdr final ans pre acc r I. rewrite flush_ready.
  destruct (closed r) eqn:C; [exists false, r, ans; auto|].
  destruct (ready_ok hdr final pre acc r I C) as (r3 & -> & I3 & _ & _ & _ & _ & _ & _ & _ & OC & _).
  destruct (Inv_perform hdr pre acc il ans r3 0 I3) as (rv & r' & ans' & -> & I' & P).
  eexists _, r', ans'. split; [reflexivity|]. split; [exact I'|].
  destruct P as (_ & _ & (_ & _ & Q & _) & _). congruence.
Qed.

(** ** Appending *)
Lemma spread_ok : forall f o ni d, fits o -> (length d + length d <= f)%nat \/
    (length d + length d <= S f)%nat /\ len (odata o) < oallocd o ->
  let '(bs, ni') := spread f o ni d in
  cat bs = odata o ++ d /\ Forall fits bs /\ ni <= ni'.
Proof.
  induction f as [|f IH]; intros o ni d F H.
  - destruct d as [|c d]; [|exfalso; cbn [length] in H; lia].
    cbn. split; [reflexivity|]. split; [|lia]. constructor; [exact F|constructor].
  - destruct d as [|c d].
    + cbn. split; [reflexivity|]. split; [|lia]. constructor; [exact F|constructor].
    + cbn [spread]. destruct (oallocd o <=? len (odata o)) eqn:E.
      * specialize (IH (mko ni [] DEFAULT_BCHAINSIZE) (ni + 1) (c :: d)).
        destruct (spread f _ _ _) as [bs n'].
        destruct IH as (A & B & C).
        { split; [cbn [odata oallocd len length]; unfold len; cbn; unfold DEFAULT_BCHAINSIZE; lia|].
          reflexivity. }
        { right. split; [destruct H; lia|]. unfold len, DEFAULT_BCHAINSIZE. cbn. lia. }
        unfold cat in *. cbn [map concat] in *. rewrite A. cbn [odata app].
        split; [reflexivity|]. split; [constructor; assumption|lia].
      * set (k := N.to_nat _).
        assert (K : (1 <= k <= length (c :: d))%nat /\ (len (odata o) + N.of_nat k <= oallocd o)).
        { subst k. unfold len in *. cbn [length] in *. lia. }
        specialize (IH (mko (oid o) (odata o ++ firstn k (c :: d)) (oallocd o)) ni (skipn k (c :: d))).
        destruct (spread f _ _ _) as [bs n'].
        destruct IH as (A & B & C).
        { unfold fits in *. cbn [odata oallocd]. unfold len in *. rewrite app_length, firstn_length. lia. }
        { left. rewrite skipn_length. destruct H; cbn [length] in *; lia. }
        rewrite A. cbn [odata]. rewrite <- app_assoc, firstn_skipn.
        split; [reflexivity|]. split; [exact B|exact C].
Qed.

Lemma rev_split : forall A (l : list A) x t, rev l = x :: t -> l = rev t ++ [x].
Proof. intros A l x t H. rewrite <- (rev_involutive l), H. reflexivity. Qed.

Lemma Inv_output : forall hdr pre acc r o d n ni, Inv hdr pre acc r -> closed r = false ->
  Forall fits o -> cat o = cat (output r) ++ d -> next_id r <= ni ->
  Inv hdr pre (acc ++ d) (set_output r o n ni).
Proof.
  intros hdr pre acc r o d n ni (I1 & I2 & I3 & I4 & I5 & I6 & ds & w & I7 & I8 & I9 & I10) CL F C N.
  split. { destruct I1 as (W1 & W2 & W3 & W4 & W5 & W6).
    split; [exact W1|]. cbn [set_output raw next_id raw_last leader raw_offset].
    split; [eapply Forall_impl; [|exact W2]; cbv beta; intros; lia|].
    repeat (split; [assumption || lia|]). exact W6. }
  split; [exact I2|]. split; [exact I3|]. split; [exact F|].
  cbn [set_output closed started output leader raw].
  split; [congruence|]. split; [exact I6|].
  exists ds, w. split; [exact I7|]. split; [rewrite C, I8, app_assoc; reflexivity|].
  split; [exact I9|exact I10].
Qed.

Lemma auto_ok : forall il hdr ans pre acc r, Inv hdr pre acc r ->
  exists r' ans', auto_flush il hdr ans r = OK (true, r', ans') /\ Inv hdr pre acc r'
    /\ opt_chunked r' = opt_chunked r.
Proof.
  intros. unfold auto_flush. destruct (over_trigger r).
  - destruct (flush_ok il hdr false ans pre acc r H) as (b & r' & ans' & -> & I & E).
    exists r', ans'. auto.
  - exists r, ans. auto.
Qed.

Lemma refused_open : forall r, refused r = false -> closed r = false.
Proof. intros r H. unfold refused in H. destruct (closed r); [|reflexivity]. destruct (in_error r); discriminate. Qed.

Lemma append_inv_auto : forall il hdr d ans pre acc r, Inv hdr pre acc r ->
  (response_append il hdr d ans r = OK (false, r, ans)
   \/ exists o n ni, Inv hdr pre (acc ++ d) (set_output r o n ni)
      /\ response_append il hdr d ans r = auto_flush il hdr ans (set_output r o n ni)).
Proof.
  intros il hdr d ans pre acc r I. unfold response_append.
  destruct (refused r) eqn:R; [left; reflexivity|right].
  pose proof I as (_ & _ & _ & F & _).
  set (T := match rev (output r) with [] => _ | _ => _ end).
  assert (H : exists fr la ni, T = (fr, la, ni) /\ fits la /\ Forall fits fr
              /\ cat (output r) = cat fr ++ odata la /\ next_id r <= ni).
  { subst T. destruct (rev (output r)) as [|o t] eqn:E.
    - assert (output r = []) as ->.
      { apply (f_equal (@rev _)) in E. rewrite rev_involutive in E. exact E. }
      eexists _, _, _. split; [reflexivity|]. split; [|split; [constructor|split; [reflexivity|lia]]].
      unfold fits, len, DEFAULT_BCHAINSIZE. cbn. lia.
    - apply rev_split in E. rewrite E in F. apply Forall_app in F. destruct F as [F1 F2].
      eexists _, _, _. split; [reflexivity|]. split; [inversion F2; assumption|].
      split; [exact F1|]. split; [|lia]. rewrite E. unfold cat. rewrite map_app, concat_app. cbn.
      rewrite app_nil_r. reflexivity. }
  destruct H as (fr & la & ni & -> & H1 & H2 & H3 & H4).
  pose proof (spread_ok (length d + length d) la ni d H1) as S0.
  destruct (spread _ la ni d) as [bs ni'].
  destruct S0 as (A & B & C); [left; reflexivity|].
  exists (fr ++ bs), (chain_bytes r + len d), ni'. split; [|reflexivity].
  apply Inv_output; auto.
  - apply refused_open. exact R.
  - apply Forall_app. split; assumption.
  - rewrite cat_app, A, H3, <- app_assoc. reflexivity.
  - clear - H4 C. lia.
Qed.

Lemma bchain_inv_auto : forall il hdr d alloc ans pre acc r, Inv hdr pre acc r ->
  len d <= alloc < 2 ^ 31 ->
  (response_append_bchain il hdr d alloc ans r = OK (false, r, ans)
   \/ exists o n ni, Inv hdr pre (acc ++ d) (set_output r o n ni)
      /\ response_append_bchain il hdr d alloc ans r = auto_flush il hdr ans (set_output r o n ni)).
Proof.
  intros il hdr d alloc ans pre acc r I L. unfold response_append_bchain.
  destruct (refused r) eqn:R; [left; reflexivity|right].
  pose proof I as (_ & _ & _ & F & _).
  set (fr := match rev (output r) with [] => _ | _ => _ end).
  assert (H : Forall fits fr /\ cat fr = cat (output r)).
  { subst fr. destruct (rev (output r)) as [|o t] eqn:E.
    - assert (output r = []) as ->.
      { apply (f_equal (@rev _)) in E. rewrite rev_involutive in E. exact E. }
      split; [constructor|reflexivity].
    - apply rev_split in E. rewrite E in *. apply Forall_app in F. destruct F as [F1 F2].
      inversion F2 as [|? ? F3 _]; subst. split.
      + apply Forall_app. split; [exact F1|]. constructor; [|constructor].
        unfold fits in *. cbn [odata oallocd]. lia.
      + rewrite !cat_app. reflexivity. }
  destruct H as [H1 H2]. eexists _, _, _. split; [|reflexivity].
  apply Inv_output; auto.
  - apply refused_open. exact R.
  - apply Forall_app. split; [assumption|]. constructor; [exact L|constructor].
  - rewrite cat_app, H2. unfold cat at 2. cbn. rewrite app_nil_r. reflexivity.
  - lia.
Qed.

Lemma append_ok : forall il hdr d ans pre acc r, Inv hdr pre acc r ->
  exists b r' ans', response_append il hdr d ans r = OK (b, r', ans')
    /\ Inv hdr pre (acc ++ (if b then d else [])) r' /\ opt_chunked r' = opt_chunked r.
Proof.
  intros il hdr d ans pre acc r I.
  destruct (append_inv_auto il hdr d ans pre acc r I) as [->|(o & n & ni & I1 & ->)].
  - exists false, r, ans. rewrite app_nil_r. auto.
  - destruct (auto_ok il hdr ans pre _ _ I1) as (r' & ans' & -> & I' & E').
    exists true, r', ans'. auto.
Qed.

Lemma append_bchain_ok : forall il hdr d alloc ans pre acc r, Inv hdr pre acc r ->
  len d <= alloc < 2 ^ 31 ->
  exists b r' ans', response_append_bchain il hdr d alloc ans r = OK (b, r', ans')
    /\ Inv hdr pre (acc ++ (if b then d else [])) r' /\ opt_chunked r' = opt_chunked r.
Proof.
  intros il hdr d alloc ans pre acc r I L.
  destruct (bchain_inv_auto il hdr d alloc ans pre acc r I L) as [->|(o & n & ni & I1 & ->)].
  - exists false, r, ans. rewrite app_nil_r. auto.
  - destruct (auto_ok il hdr ans pre _ _ I1) as (r' & ans' & -> & I' & E').
    exists true, r', ans'. auto.
Qed.

Lemma Inv_limits : forall hdr pre acc r a b, Inv hdr pre acc r -> Inv hdr pre acc (set_limits r a b).
Proof. intros hdr pre acc r a b H. exact H. Qed.

Lemma step_ok : forall hdr o il ans pre acc r, Inv hdr pre acc r -> op_ok (o, il, ans) ->
  exists b r' ans', step hdr o il ans r = OK (b, r', ans')
    /\ Inv hdr pre (acc ++ appended [(o, il, ans)] [b]) r'
    /\ opt_chunked r' = opt_chunked r.
Proof.
  intros hdr o il ans pre acc r I K. destruct o as [d|d al|f| |n|]; cbn [step op_ok appended] in *.
  - destruct (append_ok il hdr d ans pre acc r I) as (b & r' & ans' & A & B & D).
    exists b, r', ans'. split; [exact A|]. split; [|exact D]. destruct b; rewrite ?app_nil_r in *; exact B.
  - destruct (append_bchain_ok il hdr d al ans pre acc r I K) as (b & r' & ans' & A & B & D).
    exists b, r', ans'. split; [exact A|]. split; [|exact D]. destruct b; rewrite ?app_nil_r in *; exact B.
  - destruct (flush_ok il hdr f ans pre acc r I) as (b & r' & ans' & A & B & D).
    exists b, r', ans'. split; [exact A|]. split; [|exact D]. destruct b; rewrite ?app_nil_r; exact B.
  - destruct (Inv_perform hdr pre acc il ans (set_limits r (max_write r) (max_write r)) 0 (Inv_limits _ _ _ _ _ _ I))
      as (rv & r' & ans' & -> & B & P).
    eexists _, r', ans'. split; [reflexivity|]. split.
    + destruct (0 <=? rv)%Z; rewrite ?app_nil_r; exact B.
    + destruct P as (_ & _ & (_ & _ & Q & _) & _). exact Q.
  - eexists _, _, _. split; [reflexivity|]. split; [|reflexivity]. rewrite app_nil_r. apply Inv_limits. exact I.
  - contradiction.
Qed.

Lemma appended_cons : forall o b os bs, appended (o :: os) (b :: bs) = appended [o] [b] ++ appended os bs.
Proof. intros [[o il] ans] b os bs. destruct o, b; cbn [appended]; rewrite ?app_nil_r; reflexivity. Qed.

Lemma steps_ok : forall hdr os pre acc r, Inv hdr pre acc r -> Forall op_ok os ->
  exists bs r', steps hdr os r = OK (bs, r') /\ Inv hdr pre (acc ++ appended os bs) r'
    /\ opt_chunked r' = opt_chunked r.
Proof.
  intros hdr. induction os as [|[[o il] ans] os IH]; intros pre acc r I F.
  - exists [], r. split; [reflexivity|]. split; [cbn; rewrite app_nil_r; exact I|reflexivity].
  - inversion F as [|? ? F1 F2]; subst.
    destruct (step_ok hdr o il ans pre acc r I F1) as (b & r1 & a1 & A & B & C).
    destruct (IH pre _ r1 B F2) as (bs & r' & D & E & G).
    exists (b :: bs), r'. cbn [steps]. rewrite A, D. split; [reflexivity|].
    split; [|congruence]. rewrite appended_cons, app_assoc. exact E.
Qed.

Lemma fresh_inv : forall hdr c k t, Inv hdr [] [] (fresh c k t).
Proof.
  intros. unfold fresh.
  split. { repeat split; try constructor. cbn. lia. }
  split; [intros H; discriminate|]. split; [reflexivity|]. split; [constructor|].
  split; [discriminate|]. split; [intros _; split; reflexivity|].
  exists [], []. split; [destruct c; [constructor|reflexivity]|].
  split; [reflexivity|]. split; [auto|]. cbn. rewrite andb_false_r. reflexivity.
Qed.
