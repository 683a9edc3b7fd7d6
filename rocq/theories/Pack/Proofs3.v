(** Whole formats; what does not go well. *)
From Coq Require Import ZArith NArith List Bool Ascii String Lia ZifyBool ZifyNat ZifyN.
From Verif.Pack Require Import Model Spec Proofs Proofs2.
Import ListNotations.
Local Open Scope Z_scope.

Lemma decimal_nonneg : forall d k, decimal d k -> 0 <= k.
Proof. intros d k D. induction D as [c A|d k c D IH A]; unfold a_digit in A; lia. Qed.
Lemma format_counts : forall t l, format t l -> Forall (fun i => 0 <= count (snd i)) l.
Proof.
  intros t l H. induction H as [|c r l C N F IH|c d k r l C D N F IH]; constructor; auto; cbn [snd count]; [lia|].
  now apply (decimal_nonneg d).
Qed.
Lemma format_small : forall t l, format t l -> small_counts INT_MAX l -> Forall (fun i => 0 <= count (snd i) <= INT_MAX) l.
Proof.
  intros t l H S. apply format_counts in H. unfold small_counts in S. rewrite Forall_forall in *. intros [c k] I.
  specialize (H _ I). specialize (S _ I). cbn [snd] in *. destruct k; cbn [count] in *; [lia|]. unfold INT_MAX. lia.
Qed.

Section Lua.
Context (F : floats) (little : bool).
Let host_big := negb little.
Lemma host_swap : swaps little host_big false.
Proof. unfold swaps, host_big. now destruct little. Qed.

Lemma pack_same : forall t l u, format t l -> small_counts INT_MAX l -> format u (plain (spelt l)) ->
  forall a, pack F little t a = pack F little u a.
Proof.
  intros t l u H S U a. unfold pack. rewrite (items_format _ _ H), (items_format _ _ U). apply pack_spelt. now apply (format_small t).
Qed.
Lemma unpack_same : forall t l u, format t l -> small_counts INT_MAX l -> Forall (fun i => fst i <> OP_STRING) l -> format u (plain (spelt l)) ->
  forall s init, unpack F little s t init = unpack F little s u init.
Proof.
  intros t l u H S NA U s init. unfold unpack. rewrite (items_format _ _ H), (items_format _ _ U). apply unpack_spelt.
  apply (format_small t) in S; [|exact H]. rewrite Forall_forall in *. auto.
Qed.
Lemma packs_no_A : forall big cs vs ws b, packs F host_big big cs vs ws b -> Forall (fun c => c <> OP_STRING) cs.
Proof.
  intros big cs vs ws b P. induction P as [|big c cs vs ws b C P IH|big cs vs ws b P IH|big cs vs ws b P IH|big cs vs ws b P IH|big c cs v vs w ws b b' E P IH];
    constructor; auto; try discriminate.
  - destruct C as [->| ->]; discriminate.
  - destruct (pack_encodes F little big (Bool.eqb little big) c v w b eq_refl E) as (_ & A & _). exact A.
Qed.
Lemma spelt_A : forall l, Forall (fun i => 0 < count (snd i)) l -> Forall (fun c => c <> OP_STRING) (spelt l) -> Forall (fun i => fst i <> OP_STRING) l.
Proof.
  induction l as [|[c k] l IH]; intros C H; constructor.
  - inversion_clear C as [|x y A B]. cbn [snd] in A. change (spelt ((c, k) :: l)) with (repeat c (Z.to_nat (count k)) ++ spelt l) in H.
    rewrite Forall_app in H. destruct H as [H _]. destruct (Z.to_nat (count k)) eqn:E; [lia|]. now inversion_clear H.
  - inversion_clear C as [|x y A B]. change (spelt ((c, k) :: l)) with (repeat c (Z.to_nat (count k)) ++ spelt l) in H.
    rewrite Forall_app in H. now apply IH.
Qed.

Lemma pack_ok : forall t l vs ws b extra, format t l -> small_counts INT_MAX l ->
  packs F host_big host_big (spelt l) vs ws b -> pack F little t (vs ++ extra) = Ok b.
Proof.
  intros t l vs ws b extra H S P. unfold pack. rewrite (items_format _ _ H). rewrite pack_spelt by now apply (format_small t).
  apply (pack_packs F little host_big (spelt l) vs ws b P). apply host_swap.
Qed.
Lemma unpack_from : forall t l cs vs ws b pre post more, machine F -> format t l -> small_counts INT_MAX l ->
  Forall (fun i => fst i <> OP_STRING) l -> spelt l = cs ++ more ->
  packs F host_big host_big cs vs ws b -> Z.of_nat (List.length (pre ++ b)) <= INT_MAX ->
  exists swap', swaps little (order_after host_big host_big cs) swap' /\
  unpack F little (pre ++ b ++ post) t (Z.of_nat (List.length pre) + 1) =
  bind (unpack_items F little ((pre ++ b) ++ post) swap' (plain more) (Z.of_nat (List.length (pre ++ b)))) (fun q => Ok (fst q, ws ++ snd q)).
Proof.
  intros t l cs vs ws b pre post more M H S NA E P LM.
  destruct (unpack_packs F little M host_big cs vs ws b P false pre post host_swap LM more) as (swap' & S' & U).
  exists swap'. split; [exact S'|]. unfold unpack. rewrite (items_format _ _ H).
  rewrite unpack_spelt.
  - rewrite E. replace (Z.of_nat (List.length pre) + 1 - 1) with (Z.of_nat (List.length pre)) by lia. exact U.
  - apply (format_small t) in S; [|exact H]. rewrite Forall_forall in *. auto.
Qed.
Lemma unpack_ok : forall t l vs ws b pre post, machine F -> format t l -> small_counts INT_MAX l ->
  Forall (fun i => fst i <> OP_STRING) l ->
  packs F host_big host_big (spelt l) vs ws b -> Z.of_nat (List.length (pre ++ b)) <= INT_MAX ->
  unpack F little (pre ++ b ++ post) t (Z.of_nat (List.length pre) + 1) = Ok (Z.of_nat (List.length (pre ++ b)) + 1, ws).
Proof.
  intros t l vs ws b pre post M H S NA P LM.
  destruct (unpack_from t l (spelt l) vs ws b pre post [] M H S NA) as (sw & _ & U); auto; [now rewrite app_nil_r|].
  rewrite U. cbn. now rewrite app_nil_r.
Qed.
Lemma unpack_cut : forall t l cs vs ws b c v w b' more k, machine F -> format t l -> small_counts INT_MAX l ->
  Forall (fun i => fst i <> OP_STRING) l -> spelt l = cs ++ c :: more ->
  packs F host_big host_big cs vs ws b -> encodes F host_big (order_after host_big host_big cs) c v w b' -> c <> ch "z" ->
  (k < List.length b')%nat -> Z.of_nat (List.length (b ++ b')) <= INT_MAX ->
  unpack F little (b ++ firstn k b') t 1 = Ok (Z.of_nat (List.length b) + 1, ws).
Proof.
  intros t l cs vs ws b c v w b' more k M H S NA E P EN NZ K LM.
  destruct (unpack_from t l cs vs ws b [] (firstn k b') (c :: more) M H S NA E P) as (sw & S' & U).
  { cbn [app]. rewrite app_length in LM. lia. }
  cbn [app List.length] in U. change (Z.of_nat 0 + 1) with 1 in U. rewrite U.
  destruct (pack_encodes F little _ _ _ _ _ _ S' EN) as (E1 & E2 & _).
  cbn [plain map unpack_items]. rewrite E1. change (INT_MAX <? count None) with false. cbv iota.
  replace (c =? OP_STRING)%N with false by lia. change (Z.to_nat (count None)) with 1%nat. cbn [unpack_times].
  rewrite (unpack_short F little _ _ _ _ _ _ M S' EN NZ b k LM K). cbn. now rewrite app_nil_r.
Qed.

(** ** Errors *)
Lemma unknown_pack : forall c swap a, ~ In c letters -> is_endian c = false /\ (c =? OP_STRING)%N = false /\ pack_one F little swap c a = Err.
Proof.
  intros c swap a N.
  assert (X : forall k, In k letters -> (c =? k)%N = false) by (intros k I; apply N.eqb_neq; intros ->; contradiction).
  unfold is_endian, pack_one, pack_len_code, int_code, blank.
  repeat match goal with |- context [(c =? ?k)%N] => rewrite (X k) by (cbn; tauto) end. repeat split.
Qed.
Lemma unknown_unpack : forall c swap s i, ~ In c letters -> unpack_one F little s swap c i = Err.
Proof.
  intros c swap s i N.
  assert (X : forall k, In k letters -> (c =? k)%N = false) by (intros k I; apply N.eqb_neq; intros ->; contradiction).
  unfold unpack_one, unpack_len_code, int_code, blank.
  repeat match goal with |- context [(c =? ?k)%N] => rewrite (X k) by (cbn; tauto) end. reflexivity.
Qed.
Lemma pack_more : forall big cs vs ws b, packs F host_big big cs vs ws b -> forall swap extra more, swaps little big swap ->
  exists swap', pack_items F little swap (plain (cs ++ more)) (vs ++ extra) =
  bind (pack_items F little swap' (plain more) extra) (fun b' => Ok (b ++ b')).
Proof.
  intros big cs vs ws b P. induction P as [big|big c cs vs ws b C P IH|big cs vs ws b P IH|big cs vs ws b P IH|big cs vs ws b P IH|big c cs v vs w ws b b' E P IH];
    intros swap extra more S.
  - exists swap. cbn [app]. symmetry. apply bind_ok.
  - assert (CC : is_endian c = false /\ pack_one F little swap c (vs ++ extra) = Ok ([], vs ++ extra)) by (destruct C as [->| ->]; now split).
    destruct CC as [C1 C2]. destruct (IH swap extra more S) as [sw U]. exists sw.
    cbn [app plain map pack_items]. rewrite C1. change (INT_MAX <? count None) with false. cbv iota.
    change (Z.to_nat (count None)) with 1%nat. cbn [pack_times]. rewrite C2. cbn [bind fst snd app].
    fold (plain (cs ++ more)). rewrite U. destruct (pack_items F little sw _ _); reflexivity.
  - destruct (IH (doendian little (ch "<")) extra more) as [sw U]; [unfold swaps; now destruct little|]. exists sw. exact U.
  - destruct (IH (doendian little (ch ">")) extra more) as [sw U]; [unfold swaps; now destruct little|]. exists sw. exact U.
  - destruct (IH (doendian little (ch "=")) extra more) as [sw U]; [unfold swaps, host_big; now destruct little|]. exists sw. exact U.
  - destruct (pack_encodes F little _ _ _ _ _ _ S E) as (E1 & E2 & E3). destruct (IH swap extra more S) as [sw U]. exists sw.
    cbn [app plain map pack_items]. rewrite E1. change (INT_MAX <? count None) with false. cbv iota.
    change (Z.to_nat (count None)) with 1%nat. cbn [pack_times app]. rewrite E3. cbn [bind fst snd].
    fold (plain (cs ++ more)). rewrite U. destruct (pack_items F little sw _ _) as [b3| |]; cbn [bind]; try reflexivity.
    now rewrite app_nil_r, app_assoc.
Qed.
Lemma one_err : forall c swap a cs, is_endian c = false -> pack_one F little swap c a = Err -> pack_items F little swap (plain (c :: cs)) a = Err.
Proof.
  intros c swap a cs E H. cbn [plain map pack_items]. rewrite E. change (INT_MAX <? count None) with false. cbv iota.
  change (Z.to_nat (count None)) with 1%nat. cbn [pack_times]. now rewrite H.
Qed.
Lemma pack_unknown : forall t l cs vs ws b c more extra, format t l -> small_counts INT_MAX l -> spelt l = cs ++ c :: more ->
  packs F host_big host_big cs vs ws b -> ~ In c letters -> pack F little t (vs ++ extra) = Err.
Proof.
  intros t l cs vs ws b c more extra H S E P N. unfold pack. rewrite (items_format _ _ H). rewrite pack_spelt by now apply (format_small t).
  rewrite E. destruct (pack_more _ _ _ _ _ P false extra (c :: more) host_swap) as [sw U]. rewrite U.
  destruct (unknown_pack c sw extra N) as (A & _ & B). now rewrite one_err.
Qed.
Lemma pack_missing : forall t l cs vs ws b c more, format t l -> small_counts INT_MAX l -> spelt l = cs ++ c :: more ->
  packs F host_big host_big cs vs ws b -> In c (bs "zpPaAfdncbhHiIlL") -> pack F little t vs = Err.
Proof.
  intros t l cs vs ws b c more H S E P N. unfold pack. rewrite (items_format _ _ H). rewrite pack_spelt by now apply (format_small t).
  rewrite E. destruct (pack_more _ _ _ _ _ P false [] (c :: more) host_swap) as [sw U]. rewrite app_nil_r in U. rewrite U.
  rewrite one_err; [reflexivity| |]; cbn in N; repeat (destruct N as [<-|N]; [reflexivity|]); destruct N.
Qed.
Lemma unpack_unknown : forall t l cs vs ws b c more post, machine F -> format t l -> small_counts INT_MAX l ->
  Forall (fun i => fst i <> OP_STRING) l -> spelt l = cs ++ c :: more ->
  packs F host_big host_big cs vs ws b -> Z.of_nat (List.length b) <= INT_MAX -> ~ In c letters -> unpack F little (b ++ post) t 1 = Err.
Proof.
  intros t l cs vs ws b c more post M H S NA E P LM N.
  destruct (unpack_from t l cs vs ws b [] post (c :: more) M H S NA E P LM) as (sw & _ & U).
  cbn [app List.length] in U. change (Z.of_nat 0 + 1) with 1 in U. rewrite U.
  destruct (unknown_pack c sw [] N) as (A & B & _). cbn [plain map unpack_items]. rewrite A, B. change (INT_MAX <? count None) with false. cbv iota.
  change (Z.to_nat (count None)) with 1%nat. cbn [unpack_times]. now rewrite unknown_unpack.
Qed.

(** ** Any data *)
Lemma slice_ok : forall s i n, 0 <= i -> 0 <= n -> i + n <= Z.of_nat (List.length s) ->
  slice s i n = Ok (firstn (Z.to_nat n) (skipn (Z.to_nat i) s)).
Proof. intros s i n A B C. unfold slice. replace (_ || _) with false by lia. reflexivity. Qed.
Lemma strlen_le : forall s, (strlen s <= List.length s)%nat.
Proof. induction s as [|x s IH]; cbn; [lia|]. destruct (x =? 0)%N; lia. Qed.
Lemma unle_nonneg : forall b, 0 <= unle b.
Proof. induction b; cbn [unle]; lia. Qed.
Lemma firstn_oct : forall k (s : bytes), octets s -> octets (firstn k s).
Proof. intros k s H. rewrite <- (firstn_skipn k s) in H. now apply Forall_app in H. Qed.
Lemma skipn_oct : forall k (s : bytes), octets s -> octets (skipn k s).
Proof. intros k s H. rewrite <- (firstn_skipn k s) in H. now apply Forall_app in H. Qed.
Lemma get_byte : forall s swap i, octets s -> 0 <= i -> i + 1 <= Z.of_nat (List.length s) ->
  0 <= get_int little false (doswap swap (firstn (Z.to_nat 1) (skipn (Z.to_nat i) s))) <= 255.
Proof.
  intros s swap i O A B. set (b := firstn _ _).
  assert (L : List.length b = 1%nat) by (unfold b; rewrite firstn_length, skipn_length; lia).
  assert (OB : octets b) by (apply firstn_oct, skipn_oct; exact O).
  destruct b as [|x [|y b]]; try discriminate L. inversion_clear OB as [|z w X _].
  unfold get_int, doswap. destruct swap, little; cbn; lia.
Qed.
Definition tame (c : N) : Prop := c <> OP_WSTRING /\ c <> OP_SSTRING.
Lemma unpack_one_safe : forall s swap c i, octets s -> 0 <= i -> Z.of_nat (List.length s) + 255 <= INT_MAX -> tame c ->
  match unpack_one F little s swap c i with
  | Ok (Val _ _ j) => 0 <= j <= Z.of_nat (List.length s) + 1
  | Bad => False
  | _ => True
  end.
Proof.
  intros s swap c i O A LM [T1 T2]. unfold unpack_one.
  destruct (c =? OP_ZSTRING)%N.
  - destruct (Z.leb_spec (Z.of_nat (List.length s)) i) as [X|X]; [exact I|]. replace (i <? 0) with false by lia.
    pose proof (strlen_le (skipn (Z.to_nat i) s)) as SL. rewrite skipn_length in SL.
    rewrite slice_ok by lia. cbn [bind]. lia.
  - unfold unpack_len_code. destruct (N.eqb_spec c OP_BSTRING) as [E|E].
    + change (Z.of_nat 1) with 1.
      destruct (Z.ltb_spec (Z.of_nat (List.length s)) (i + 1)) as [X|X]; [exact I|]. rewrite slice_ok by lia. cbn [bind].
      pose proof (get_byte s swap i O A X) as G. set (l := get_int _ _ _) in *.
      replace (INT_MAX <? i + 1 + l) with false by lia.
      destruct (Z.ltb_spec (Z.of_nat (List.length s)) (i + 1 + l)) as [Y|Y]; [exact I|]. rewrite slice_ok by lia. cbn [bind]. lia.
    + replace (c =? OP_WSTRING)%N with false by lia. replace (c =? OP_SSTRING)%N with false by lia.
      assert (G : forall n (f : bytes -> val F), 0 <= n ->
        match (if Z.of_nat (List.length s) <? i + n then Ok (Finish F) else bind (slice s i n) (fun b => Ok (Val F (f b) (i + n)))) with
        | Ok (Val _ _ j) => 0 <= j <= Z.of_nat (List.length s) + 1 | Bad => False | _ => True end).
      { intros n f N. destruct (Z.ltb_spec (Z.of_nat (List.length s)) (i + n)) as [X|X]; [exact I|]. rewrite slice_ok by lia. cbn [bind]. lia. }
      destruct (_ || _); [apply (G 8 (fun b => Num (dget F (doswap swap b)))); lia|].
      destruct (c =? OP_FLOAT)%N; [apply (G 4 (fun b => Num (fget F (doswap swap b)))); lia|].
      destruct (int_code c) as [[sgn n]|].
      * apply (G (Z.of_nat n) (fun b => Num (of_int F (get_int little sgn (doswap swap b))))). lia.
      * now destruct (blank c).
Qed.
Definition within (s : bytes) (i j : Z) : Prop := 0 <= j /\ (j = i \/ j <= Z.of_nat (List.length s) + 1).
Lemma unpack_times_safe : forall s swap c n i, octets s -> 0 <= i -> Z.of_nat (List.length s) + 255 <= INT_MAX -> tame c ->
  match unpack_times F little n s swap c i with
  | Ok r => within s i (snd (fst r))
  | Bad => False
  | Err => True
  end.
Proof.
  intros s swap c. induction n as [|n IH]; intros i O A LM T; cbn [unpack_times].
  - cbn. unfold within. lia.
  - pose proof (unpack_one_safe s swap c i O A LM T) as U. destruct (unpack_one F little s swap c i) as [[v j| |]| |]; cbn [bind]; try exact U; try exact I.
    + specialize (IH j O ltac:(lia) LM T). destruct (unpack_times F little n s swap c j) as [r| |]; cbn [bind fst snd]; try exact IH.
      unfold within in *. lia.
    + exact (IH i O A LM T).
    + cbn. unfold within. lia.
Qed.
Lemma unpack_items_safe : forall s B M l swap i, octets s -> 0 <= i <= B -> Z.of_nat (List.length s) + 1 <= B -> B + M <= INT_MAX -> 255 <= M ->
  Forall (fun i => 0 <= count (snd i) <= M /\ tame (fst i)) l ->
  unpack_items F little s swap l i <> Bad.
Proof.
  intros s B M. induction l as [|[c k] l IH]; intros swap i O A SB BM M2 H; [discriminate|].
  inversion_clear H as [|x y [C T] D]. cbn [fst snd] in C, T. cbn [unpack_items].
  replace (INT_MAX <? count k) with false by lia. destruct (is_endian c); [now apply IH|].
  assert (G : match (if (c =? OP_STRING)%N then unpack_string F (count k) s i else unpack_times F little (Z.to_nat (count k)) s swap c i) with
              | Ok r => within s i (snd (fst r)) | Bad => False | Err => True end).
  { destruct (c =? OP_STRING)%N.
    - unfold unpack_string. destruct (Z.eqb_spec (count k) 0); [cbn; unfold within; lia|].
      replace (INT_MAX <? i + count k) with false by lia.
      destruct (Z.ltb_spec (Z.of_nat (List.length s)) (i + count k)); [cbn; unfold within; lia|].
      rewrite slice_ok by lia. cbn. unfold within. lia.
    - apply unpack_times_safe; auto; lia. }
  destruct (if (c =? OP_STRING)%N then _ else _) as [r| |]; cbn [bind]; try discriminate; [|contradiction].
  destruct (snd r); [discriminate|]. unfold within in G.
  specialize (IH swap (snd (fst r)) O ltac:(lia) SB BM M2 D).
  destruct (unpack_items F little s swap l (snd (fst r))) as [[p q]| |]; cbn [bind]; try discriminate. contradiction.
Qed.
Lemma unpack_safe : forall s t l M init, octets s -> format t l -> small_counts M l -> 255 <= M ->
  Forall (fun i => tame (fst i)) l -> 1 <= init -> init + M <= INT_MAX -> Z.of_nat (List.length s) + 1 + M <= INT_MAX ->
  unpack F little s t init <> Bad.
Proof.
  intros s t l M init O H S M2 T I1 I2 LM. unfold unpack. rewrite (items_format _ _ H).
  apply (unpack_items_safe s (Z.max (init - 1) (Z.of_nat (List.length s) + 1)) M); auto; try lia.
  apply format_counts in H. unfold small_counts in S. rewrite Forall_forall in *. intros [c k] I. specialize (H _ I). specialize (S _ I). specialize (T _ I).
  cbn [fst snd] in *. split; [|exact T]. destruct k; cbn [count] in *; lia.
Qed.
(** A length with its first bit set. *)
Lemma negative : forall big swap c n b z pre post, swaps little big swap -> (c = OP_WSTRING /\ n = 2%nat \/ c = OP_SSTRING /\ n = 4%nat) ->
  List.length b = n -> in_order big b z -> 2 ^ (8 * Z.of_nat n - 1) <= z -> Z.of_nat (List.length (pre ++ b)) <= INT_MAX ->
  unpack_one F little (pre ++ b ++ post) swap c (Z.of_nat (List.length pre)) = Bad.
Proof.
  intros big swap c n b z pre post S C L O N LM. rewrite app_length in LM.
  assert (CC : (c =? OP_ZSTRING)%N = false /\ unpack_len_code c = Some (true, n) /\ (0 < n)%nat).
  { destruct C as [[-> ->]|[-> ->]]; repeat split; lia. }
  destruct CC as (C1 & C2 & C3). unfold unpack_one. rewrite C1, C2. rewrite !app_length. rewrite <- L.
  replace (Z.of_nat _ <? _) with false by lia. rewrite (slice_mid little). cbn [bind].
  apply in_order_iff in O as (OO & OB & O).
  assert (G : get_int little true (doswap swap b) < 0).
  { rewrite O. rewrite (get_order _ _ _ _ _ _ S). rewrite Z.mod_small by exact OB. unfold sign. rewrite L in *.
    replace (true && (2 ^ (8 * Z.of_nat n - 1) <=? z)) with true by lia. lia. }
  set (l := get_int _ _ _) in *.
  destruct (Z.ltb_spec INT_MAX (Z.of_nat (List.length pre) + Z.of_nat (List.length b) + l)); [reflexivity|].
  destruct (Z.ltb_spec (Z.of_nat (List.length pre + (List.length b + List.length post))) (Z.of_nat (List.length pre) + Z.of_nat (List.length b) + l)); [lia|].
  unfold slice. replace (l <? 0) with true by lia. rewrite orb_true_r. reflexivity.
Qed.
End Lua.
