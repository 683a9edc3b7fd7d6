(** Packing and unpacking, code by code. *)
From Coq Require Import ZArith NArith List Bool Ascii String Lia ZifyBool ZifyNat ZifyN.
From Verif.Pack Require Import Model Spec Proofs.
Import ListNotations.
Local Open Scope Z_scope.

Definition plain (cs : list N) : list (N * option Z) := map (fun c => (c, None)) cs.
Lemma bind_ok : forall A (o : out A), bind o (fun a => Ok a) = o.
Proof. intros A [a| |]; reflexivity. Qed.
Lemma doendian_idem : forall little c (s : bool), is_endian c = true -> (if count None =? 0 then s else doendian little c) = doendian little c.
Proof. reflexivity. Qed.

Section Lua.
Context (F : floats) (little : bool).
Let host_big := negb little.

(** ** Counts *)
Lemma pack_plain : forall c n cs swap a, is_endian c = false ->
  pack_items F little swap (plain (repeat c n ++ cs)) a =
  bind (pack_times F little n swap c a) (fun br => bind (pack_items F little swap (plain cs) (snd br)) (fun b => Ok (fst br ++ b))).
Proof.
  intros c. induction n as [|n IH]; intros cs swap a E.
  - cbn [repeat app pack_times bind fst snd]. symmetry. apply bind_ok.
  - cbn [repeat app plain map]. fold (plain (repeat c n ++ cs)). cbn [pack_items]. rewrite E.
    change (INT_MAX <? count None) with false. cbv iota. change (Z.to_nat (count None)) with 1%nat.
    cbn [pack_times]. destruct (pack_one F little swap c a) as [[b1 r1]| |]; cbn [bind fst snd]; try reflexivity.
    rewrite IH by exact E. destruct (pack_times F little n swap c r1) as [[b2 r2]| |]; cbn [bind fst snd]; try reflexivity.
    destruct (pack_items F little swap (plain cs) r2) as [b3| |]; cbn [bind]; try reflexivity.
    now rewrite app_nil_r, app_assoc.
Qed.
Lemma pack_endian : forall c n cs swap a, is_endian c = true ->
  pack_items F little swap (plain (repeat c n ++ cs)) a =
  pack_items F little (match n with O => swap | _ => doendian little c end) (plain cs) a.
Proof.
  intros c. induction n as [|n IH]; intros cs swap a E; [reflexivity|].
  cbn [repeat app plain map]. fold (plain (repeat c n ++ cs)). cbn [pack_items]. rewrite E.
  change (INT_MAX <? count None) with false. cbv iota. change (count None =? 0) with false. cbv iota.
  rewrite IH by exact E. now destruct n.
Qed.
Lemma pack_spelt : forall l swap a, Forall (fun i => 0 <= count (snd i) <= INT_MAX) l ->
  pack_items F little swap l a = pack_items F little swap (plain (spelt l)) a.
Proof.
  induction l as [|[c k] l IH]; intros swap a H; [reflexivity|]. inversion_clear H as [|x y A B]. cbn [snd] in A.
  change (spelt ((c, k) :: l)) with (repeat c (Z.to_nat (count k)) ++ spelt l).
  cbn [pack_items]. replace (INT_MAX <? count k) with false by lia. destruct (is_endian c) eqn:E.
  - rewrite pack_endian by exact E. rewrite IH by exact B. f_equal.
    destruct (Z.to_nat (count k)) eqn:Z0; destruct (Z.eqb_spec (count k) 0); try lia; reflexivity.
  - rewrite pack_plain by exact E. destruct (pack_times _ _ _ _ _ _) as [[b r]| |]; cbn [bind fst snd]; try reflexivity.
    now rewrite IH.
Qed.
Lemma unpack_plain : forall s c n cs swap i, is_endian c = false -> c <> OP_STRING ->
  unpack_items F little s swap (plain (repeat c n ++ cs)) i =
  bind (unpack_times F little n s swap c i) (fun r =>
    if snd r then Ok (snd (fst r) + 1, fst (fst r))
    else bind (unpack_items F little s swap (plain cs) (snd (fst r))) (fun q => Ok (fst q, fst (fst r) ++ snd q))).
Proof.
  intros s c. induction n as [|n IH]; intros cs swap i E NA.
  - cbn [repeat app unpack_times bind fst snd]. destruct (unpack_items F little s swap (plain cs) i) as [[p v]| |]; reflexivity.
  - cbn [repeat app plain map]. fold (plain (repeat c n ++ cs)). cbn [unpack_items]. rewrite E.
    change (INT_MAX <? count None) with false. cbv iota. change (Z.to_nat (count None)) with 1%nat.
    replace (c =? OP_STRING)%N with false by lia.
    cbn [unpack_times]. destruct (unpack_one F little s swap c i) as [[v j| |]| |]; cbn [bind fst snd]; try reflexivity.
    + rewrite IH by assumption. destruct (unpack_times F little n s swap c j) as [[[v2 j2] [|]]| |]; cbn [bind fst snd]; try reflexivity.
      destruct (unpack_items F little s swap (plain cs) j2) as [[p q]| |]; cbn [bind fst snd]; reflexivity.
    + rewrite IH by assumption. destruct (unpack_times F little n s swap c i) as [[[v2 j2] [|]]| |]; cbn [bind fst snd]; try reflexivity.
      destruct (unpack_items F little s swap (plain cs) j2) as [[p q]| |]; cbn [bind fst snd]; reflexivity.
Qed.
Lemma unpack_endian : forall s c n cs swap i, is_endian c = true ->
  unpack_items F little s swap (plain (repeat c n ++ cs)) i =
  unpack_items F little s (match n with O => swap | _ => doendian little c end) (plain cs) i.
Proof.
  intros s c. induction n as [|n IH]; intros cs swap i E; [reflexivity|].
  cbn [repeat app plain map]. fold (plain (repeat c n ++ cs)). cbn [unpack_items]. rewrite E.
  change (INT_MAX <? count None) with false. cbv iota. change (count None =? 0) with false. cbv iota.
  rewrite IH by exact E. now destruct n.
Qed.
Lemma unpack_spelt : forall s l swap i, Forall (fun i => 0 <= count (snd i) <= INT_MAX /\ fst i <> OP_STRING) l ->
  unpack_items F little s swap l i = unpack_items F little s swap (plain (spelt l)) i.
Proof.
  intro s. induction l as [|[c k] l IH]; intros swap i H; [reflexivity|]. inversion_clear H as [|x y [A A'] B]. cbn [fst snd] in A, A'.
  change (spelt ((c, k) :: l)) with (repeat c (Z.to_nat (count k)) ++ spelt l).
  cbn [unpack_items]. replace (INT_MAX <? count k) with false by lia. destruct (is_endian c) eqn:E.
  - rewrite unpack_endian by exact E. rewrite IH by exact B. f_equal.
    destruct (Z.to_nat (count k)) eqn:Z0; destruct (Z.eqb_spec (count k) 0); try lia; reflexivity.
  - rewrite unpack_plain by assumption. replace (c =? OP_STRING)%N with false by lia.
    destruct (unpack_times _ _ _ _ _ _ _) as [[[v j] [|]]| |]; cbn [bind fst snd]; try reflexivity.
    now rewrite IH.
Qed.

(** ** One code *)
Lemma order_host : forall big swap (b : bytes), swaps little big swap ->
  doswap swap b = if Bool.eqb big host_big then b else rev b.
Proof. intros big swap b ->. unfold doswap, host_big. now destruct little, big. Qed.
Lemma order_back : forall big swap (b : bytes), swaps little big swap ->
  doswap swap (if Bool.eqb big host_big then b else rev b) = b.
Proof. intros big swap b ->. unfold doswap, host_big. destruct little, big; cbn; try reflexivity; apply rev_involutive. Qed.
Lemma str_kind_codes : forall c n m, str_kind c n m -> pack_len_code c = Some n /\
  is_endian c = false /\ (c =? OP_STRING)%N = false /\ (c =? OP_ZSTRING)%N = false /\
  (exists sgn, unpack_len_code c = Some (sgn, n) /\ (0 < n)%nat /\ forall z, 0 <= z < m -> in_type sgn n z = true).
Proof.
  intros c n m K. destruct K; (split; [reflexivity|]); (split; [reflexivity|]); (split; [reflexivity|]); (split; [reflexivity|]);
    eexists; (split; [reflexivity|]); (split; [lia|]); intros z H; unfold in_type; cbn [Z.of_nat Pos.of_succ_nat Pos.succ];
    match goal with |- context [2 ^ ?e] => let v := eval compute in (2 ^ e) in change (2 ^ e) with v end; lia.
Qed.
Lemma int_kind_other : forall c lo hi n, int_kind c lo hi n -> is_endian c = false /\ (c =? OP_STRING)%N = false /\ (c =? OP_ZSTRING)%N = false /\
  pack_len_code c = None /\ unpack_len_code c = None /\ (c =? OP_NUMBER)%N = false /\ (c =? OP_DOUBLE)%N = false /\ (c =? OP_FLOAT)%N = false.
Proof. intros c lo hi n K. destruct K; repeat split. Qed.

Lemma pack_encodes : forall big swap c v w b, swaps little big swap -> encodes F host_big big c v w b ->
  is_endian c = false /\ c <> OP_STRING /\ forall r, pack_one F little swap c (v :: r) = Ok (b, r).
Proof.
  intros big swap c v w b S E. destruct E as [c lo hi n x z b K T R L O|c x K|x|c n m s b K R L O|s N].
  - destruct (int_kind_other _ _ _ _ K) as (A1 & A2 & A3 & A4 & A5 & A6 & A7 & A8).
    split; [exact A1|]. split; [lia|]. intro r. unfold pack_one. rewrite A2, A3, A4, A6, A7, A8. cbn [orb].
    destruct (int_kind_code _ _ _ _ K) as (sgn & I1 & I2 & I3). rewrite I1. cbn [check_number bind fst snd]. rewrite T.
    replace (in_type sgn n z) with true by (symmetry; now apply I3).
    rewrite (put_order _ _ _ _ _ S). apply in_order_iff in O as (_ & _ & O). rewrite O, L. unfold ordered. rewrite le_mod. reflexivity.
  - destruct K as [->| ->]; (split; [reflexivity|]); (split; [discriminate|]); intro r; cbn; now rewrite <- (order_host _ swap).
  - split; [reflexivity|]. split; [discriminate|]. intro r. cbn. now rewrite <- (order_host _ swap).
  - destruct (str_kind_codes _ _ _ K) as (A1 & A2 & A3 & A4 & _). split; [exact A2|]. split; [lia|]. intro r. unfold pack_one.
    rewrite A3, A4. cbn [orb]. rewrite A1. cbn [check_string bind fst snd]. rewrite (put_order _ _ _ _ _ S).
    apply in_order_iff in O as (_ & _ & O). now rewrite O, L.
  - split; [reflexivity|]. split; [discriminate|]. intro r. reflexivity.
Qed.

Lemma slice_mid : forall pre b post, slice (pre ++ b ++ post) (Z.of_nat (List.length pre)) (Z.of_nat (List.length b)) = Ok b.
Proof.
  intros pre b post. unfold slice. rewrite !app_length.
  replace ((Z.of_nat (List.length pre) <? 0) || (Z.of_nat (List.length b) <? 0)
     || (Z.of_nat (List.length pre + (List.length b + List.length post)) <? Z.of_nat (List.length pre) + Z.of_nat (List.length b))) with false by lia.
  rewrite !Nat2Z.id. rewrite skipn_app, skipn_all, Nat.sub_diag. cbn [app skipn].
  now rewrite firstn_app, firstn_all, Nat.sub_diag, app_nil_r.
Qed.
Lemma strlen_mid : forall s post, ~ In 0%N s -> strlen (s ++ 0%N :: post) = List.length s.
Proof.
  induction s as [|x s IH]; intros post N; [reflexivity|]. cbn [app strlen List.length].
  replace (x =? 0)%N with false by (symmetry; apply N.eqb_neq; intros ->; apply N; now left).
  now rewrite IH by (intro; apply N; now right).
Qed.
Lemma skip_pre : forall (pre b : bytes), skipn (Z.to_nat (Z.of_nat (List.length pre))) (pre ++ b) = b.
Proof. intros. rewrite Nat2Z.id, skipn_app, skipn_all, Nat.sub_diag. reflexivity. Qed.

Lemma unpack_encodes : forall big swap c v w b, machine F -> swaps little big swap -> encodes F host_big big c v w b ->
  forall pre post, Z.of_nat (List.length (pre ++ b)) <= INT_MAX ->
  unpack_one F little (pre ++ b ++ post) swap c (Z.of_nat (List.length pre)) = Ok (Val F w (Z.of_nat (List.length pre) + Z.of_nat (List.length b))).
Proof.
  intros big swap c v w b [MD MF] S E pre post LM. rewrite app_length in LM.
  destruct E as [c lo hi n x z b K T R L O|c x K|x|c n m s b K R L O|s N].
  - destruct (int_kind_other _ _ _ _ K) as (A1 & A2 & A3 & A4 & A5 & A6 & A7 & A8).
    unfold unpack_one. rewrite A3, A5, A6, A7, A8. cbn [orb].
    destruct (int_kind_code _ _ _ _ K) as (sgn & I1 & I2 & I3). rewrite I1. rewrite <- L. rewrite !app_length.
    replace (Z.of_nat _ <? _) with false by lia. rewrite slice_mid. cbn [bind].
    apply in_order_iff in O as (_ & _ & O). rewrite O, L. rewrite (get_order _ _ _ _ _ _ S).
    rewrite Z.mod_mod by (pose proof (pow8_pos n); lia). rewrite sign_in by (auto; now apply I3).
    unfold ordered. destruct big; rewrite ?rev_length, le_length; reflexivity.
  - assert (C : (c =? OP_ZSTRING)%N = false /\ unpack_len_code c = None /\ ((c =? OP_NUMBER) || (c =? OP_DOUBLE))%N = true)
      by (destruct K as [->| ->]; repeat split).
    destruct C as (C1 & C2 & C3). unfold unpack_one. rewrite C1, C2, C3. rewrite !app_length.
    destruct (MD x) as [M1 M2].
    set (b := if Bool.eqb big host_big then dput F x else rev (dput F x)).
    assert (LB : List.length b = 8%nat) by (unfold b; destruct (Bool.eqb big host_big); rewrite ?rev_length; exact M1).
    rewrite LB. replace (Z.of_nat _ <? _) with false by lia. change 8 with (Z.of_nat 8). rewrite <- LB at 1. rewrite slice_mid. cbn [bind].
    unfold b. rewrite (order_back _ _ _ S), M2. reflexivity.
  - unfold unpack_one. change ((ch "f" =? OP_ZSTRING)%N) with false. change (unpack_len_code (ch "f")) with (@None (bool * nat)).
    change ((ch "f" =? OP_NUMBER)%N || (ch "f" =? OP_DOUBLE)%N) with false. change (ch "f" =? OP_FLOAT)%N with true. cbv iota.
    rewrite !app_length.
    set (b := if Bool.eqb big host_big then fput F x else rev (fput F x)).
    assert (LB : List.length b = 4%nat) by (unfold b; destruct (Bool.eqb big host_big); rewrite ?rev_length; apply MF).
    rewrite LB. replace (Z.of_nat _ <? _) with false by lia. change 4 with (Z.of_nat 4). rewrite <- LB at 1. rewrite slice_mid. cbn [bind].
    unfold b. rewrite (order_back _ _ _ S). reflexivity.
  - destruct (str_kind_codes _ _ _ K) as (A1 & A2 & A3 & A4 & sgn & U1 & U2 & U3). unfold unpack_one. rewrite A4, U1.
    rewrite <- L. rewrite app_length in LM. rewrite <- (app_assoc b s post). rewrite slice_mid. rewrite !app_length.
    replace (Z.of_nat _ <? _) with false by lia. cbn [bind].
    assert (G : get_int little sgn (doswap swap b) = Z.of_nat (List.length s)).
    { apply in_order_iff in O as (_ & _ & O). rewrite O, L. rewrite (get_order _ _ _ _ _ _ S). apply sign_in; [exact U2|]. apply U3. lia. }
    rewrite G. replace (INT_MAX <? _) with false by lia.
    replace (Z.of_nat (List.length pre + (List.length b + (List.length s + List.length post))) <? Z.of_nat (List.length pre) + Z.of_nat (List.length b) + Z.of_nat (List.length s)) with false by lia.
    pose proof (slice_mid (pre ++ b) s post) as SM. rewrite app_length, <- app_assoc in SM.
    replace (Z.of_nat (List.length pre) + Z.of_nat (List.length b)) with (Z.of_nat (List.length pre + List.length b)) by lia.
    rewrite SM. cbn [bind]. f_equal. f_equal. lia.
  - unfold unpack_one. change (ch "z" =? OP_ZSTRING)%N with true. cbv iota. rewrite skip_pre. rewrite <- !app_assoc. cbn [app].
    rewrite strlen_mid by exact N. rewrite !app_length. cbn [List.length].
    replace (Z.of_nat _ <=? _) with false by lia. replace (Z.of_nat (List.length pre) <? 0) with false by lia.
    rewrite slice_mid. cbn [bind]. f_equal. f_equal. lia.
Qed.
(** An encoding that is cut short. *)
Lemma unpack_short : forall big swap c v w b, machine F -> swaps little big swap -> encodes F host_big big c v w b -> c <> ch "z" ->
  forall pre k, Z.of_nat (List.length (pre ++ b)) <= INT_MAX -> (k < List.length b)%nat ->
  unpack_one F little (pre ++ firstn k b) swap c (Z.of_nat (List.length pre)) = Ok (Finish F).
Proof.
  intros big swap c v w b [MD MF] S E NZ pre k LM KB. rewrite app_length in LM.
  assert (LF : List.length (pre ++ firstn k b) = (List.length pre + k)%nat) by (rewrite app_length, firstn_length; lia).
  destruct E as [c lo hi n x z b K T R L O|c x K|x|c n m s b K R L O|s N].
  - destruct (int_kind_other _ _ _ _ K) as (A1 & A2 & A3 & A4 & A5 & A6 & A7 & A8).
    unfold unpack_one. rewrite A3, A5, A6, A7, A8, LF. cbn [orb].
    destruct (int_kind_code _ _ _ _ K) as (sgn & I1 & I2 & I3). rewrite I1.
    replace (Z.of_nat _ <? _) with true by lia. reflexivity.
  - assert (C : (c =? OP_ZSTRING)%N = false /\ unpack_len_code c = None /\ ((c =? OP_NUMBER) || (c =? OP_DOUBLE))%N = true)
      by (destruct K as [->| ->]; repeat split).
    destruct C as (C1 & C2 & C3). unfold unpack_one. rewrite C1, C2, C3, LF. destruct (MD x) as [M1 M2].
    assert (LB : (k < 8)%nat) by (destruct (Bool.eqb big host_big); rewrite ?rev_length in KB; lia).
    replace (Z.of_nat _ <? _) with true by lia. reflexivity.
  - unfold unpack_one. change ((ch "f" =? OP_ZSTRING)%N) with false. change (unpack_len_code (ch "f")) with (@None (bool * nat)).
    change ((ch "f" =? OP_NUMBER)%N || (ch "f" =? OP_DOUBLE)%N) with false. change (ch "f" =? OP_FLOAT)%N with true. cbv iota.
    rewrite LF. pose proof (MF x).
    assert (LB : (k < 4)%nat) by (destruct (Bool.eqb big host_big); rewrite ?rev_length in KB; lia).
    replace (Z.of_nat _ <? _) with true by lia. reflexivity.
  - destruct (str_kind_codes _ _ _ K) as (A1 & A2 & A3 & A4 & sgn & U1 & U2 & U3). unfold unpack_one. rewrite A4, U1, LF.
    rewrite app_length in LM, KB.
    destruct (Z.ltb_spec (Z.of_nat (List.length pre + k)) (Z.of_nat (List.length pre) + Z.of_nat n)) as [X|X]; [reflexivity|].
    rewrite firstn_app, firstn_all2 by lia. rewrite <- L. rewrite slice_mid. cbn [bind].
    assert (G : get_int little sgn (doswap swap b) = Z.of_nat (List.length s)).
    { apply in_order_iff in O as (_ & _ & O). rewrite O, L. rewrite (get_order _ _ _ _ _ _ S). apply sign_in; [exact U2|]. apply U3. lia. }
    rewrite G. replace (INT_MAX <? _) with false by lia. replace (Z.of_nat _ <? _) with true by lia. reflexivity.
  - now contradiction NZ.
Qed.

(** ** Sequences *)
Lemma pack_packs : forall big cs vs ws b, packs F host_big big cs vs ws b -> forall swap extra, swaps little big swap ->
  pack_items F little swap (plain cs) (vs ++ extra) = Ok b.
Proof.
  intros big cs vs ws b P. induction P as [big|big c cs vs ws b C P IH|big cs vs ws b P IH|big cs vs ws b P IH|big cs vs ws b P IH|big c cs v vs w ws b b' E P IH];
    intros swap extra S.
  - reflexivity.
  - assert (CC : is_endian c = false /\ pack_one F little swap c (vs ++ extra) = Ok ([], vs ++ extra)) by (destruct C as [->| ->]; now split).
    destruct CC as [C1 C2]. cbn [plain map pack_items]. rewrite C1. change (INT_MAX <? count None) with false. cbv iota.
    change (Z.to_nat (count None)) with 1%nat. cbn [pack_times]. rewrite C2. cbn [bind fst snd app].
    fold (plain cs). now rewrite IH.
  - cbn [plain map pack_items]. apply IH. unfold swaps. now destruct little.
  - cbn [plain map pack_items]. apply IH. unfold swaps. now destruct little.
  - cbn [plain map pack_items]. apply IH. unfold swaps, host_big. now destruct little.
  - destruct (pack_encodes _ _ _ _ _ _ S E) as (E1 & E2 & E3).
    cbn [plain map pack_items]. rewrite E1. change (INT_MAX <? count None) with false. cbv iota.
    change (Z.to_nat (count None)) with 1%nat. cbn [pack_times app]. rewrite E3. cbn [bind fst snd].
    fold (plain cs). rewrite IH by exact S. cbn [bind]. now rewrite app_nil_r.
Qed.
Lemma unpack_packs : machine F -> forall big cs vs ws b, packs F host_big big cs vs ws b -> forall swap pre post, swaps little big swap ->
  Z.of_nat (List.length (pre ++ b)) <= INT_MAX -> forall more,
  exists swap', swaps little (order_after host_big big cs) swap' /\
  unpack_items F little (pre ++ b ++ post) swap (plain (cs ++ more)) (Z.of_nat (List.length pre)) =
  bind (unpack_items F little ((pre ++ b) ++ post) swap' (plain more) (Z.of_nat (List.length (pre ++ b)))) (fun q => Ok (fst q, ws ++ snd q)).
Proof.
  intros M big cs vs ws b P.
  induction P as [big|big c cs vs ws b C P IH|big cs vs ws b P IH|big cs vs ws b P IH|big cs vs ws b P IH|big c cs v vs w ws b b' E P IH];
    intros swap pre post S LM more.
  - exists swap. split; [exact S|]. rewrite app_nil_r. cbn [app].
    destruct (unpack_items F little (pre ++ post) swap (plain more) (Z.of_nat (List.length pre))) as [[p q]| |]; reflexivity.
  - assert (CC : is_endian c = false /\ (c =? OP_STRING)%N = false /\ forall s i, unpack_one F little s swap c i = Ok (Nothing F)) by (destruct C as [->| ->]; now repeat split).
    destruct CC as (C1 & C2 & C3). destruct (IH swap pre post S LM more) as (swap' & S' & U). exists swap'. split; [destruct C as [->| ->]; exact S'|].
    cbn [app plain map unpack_items]. rewrite C1, C2. change (INT_MAX <? count None) with false. cbv iota.
    change (Z.to_nat (count None)) with 1%nat. cbn [unpack_times]. rewrite C3. cbn [bind fst snd app].
    fold (plain (cs ++ more)). rewrite U. destruct (unpack_items F little _ swap' _ _) as [[p q]| |]; reflexivity.
  - destruct (IH (doendian little (ch "<")) pre post) with (more := more) as (swap' & S' & U); [unfold swaps; now destruct little|exact LM|].
    exists swap'. split; [exact S'|exact U].
  - destruct (IH (doendian little (ch ">")) pre post) with (more := more) as (swap' & S' & U); [unfold swaps; now destruct little|exact LM|].
    exists swap'. split; [exact S'|exact U].
  - destruct (IH (doendian little (ch "=")) pre post) with (more := more) as (swap' & S' & U); [unfold swaps, host_big; now destruct little|exact LM|].
    exists swap'. split; [exact S'|exact U].
  - destruct (pack_encodes _ _ _ _ _ _ S E) as (E1 & E2 & _). rewrite !app_length in LM.
    destruct (IH swap (pre ++ b) post S) with (more := more) as (swap' & S' & U); [rewrite !app_length; lia|].
    exists swap'. split; [cbn [order_after]; unfold is_endian in E1; change (ch "<") with OP_LITTLEENDIAN; change (ch ">") with OP_BIGENDIAN; change (ch "=") with OP_NATIVE;
      destruct (c =? OP_LITTLEENDIAN)%N, (c =? OP_BIGENDIAN)%N, (c =? OP_NATIVE)%N; try discriminate E1; exact S'|].
    pose proof (unpack_encodes _ _ _ _ _ _ M S E pre (b' ++ post)) as UO. rewrite app_length in UO. specialize (UO ltac:(lia)).
    cbn [app plain map unpack_items]. rewrite E1. change (INT_MAX <? count None) with false. cbv iota.
    replace (c =? OP_STRING)%N with false by lia.
    change (Z.to_nat (count None)) with 1%nat. cbn [unpack_times]. rewrite <- app_assoc. rewrite UO. cbn [bind fst snd app].
    fold (plain (cs ++ more)).
    replace (Z.of_nat (List.length pre) + Z.of_nat (List.length b)) with (Z.of_nat (List.length (pre ++ b))) by (rewrite app_length; lia).
    rewrite <- app_assoc in U. rewrite U. clear U UO IH. rewrite <- !app_assoc. destruct (unpack_items F little _ swap' _ _) as [[p q]| |]; reflexivity.
Qed.
End Lua.
