From Coq Require Import Arith NArith ZArith List Bool Lia ZifyBool ZifyNat ZifyN.
From Verif.Dynbuf Require Import Model Spec.
Import ListNotations.
Ltac Zify.zify_post_hook ::= Z.div_mod_to_equations.

(** ** Arithmetic *)
Lemma w64_small a : (N.of_nat a < 2 ^ 64)%N -> w64 a = a.
Proof. intros. unfold w64. rewrite N.mod_small by auto. lia. Qed.

Lemma to_size_nat a : (N.of_nat a < 2 ^ 64)%N -> to_size (Z.of_nat a) = a.
Proof. intros. unfold to_size. rewrite Z.mod_small by lia. lia. Qed.

Lemma to_int_small a : (N.of_nat a < 2 ^ 31)%N -> to_int (Z.of_nat a) = Z.of_nat a.
Proof.
  intros. unfold to_int. rewrite Z.mod_small by lia.
  destruct (Z.ltb_spec (Z.of_nat a) (2 ^ 31)); lia.
Qed.

Lemma to_int_le a : (0 <= a)%Z -> (to_int a <= a)%Z.
Proof. unfold to_int. destruct (_ <? _)%Z eqn:E; lia. Qed.

Lemma to_int_range a : (- 2 ^ 31 <= to_int a < 2 ^ 31)%Z.
Proof. unfold to_int. destruct (_ <? _)%Z eqn:E; lia. Qed.

Lemma to_int_neg a : (0 <= a)%Z -> (to_int a < 0)%Z -> (2 ^ 31 <= a)%Z.
Proof. unfold to_int. destruct (_ <? _)%Z eqn:E; lia. Qed.

Lemma static_val : (N.of_nat static_size = 4096)%N.
Proof. apply N2Nat.id. Qed.
Opaque static_size.

(** ** Memory *)
Lemma blit_ok m off d : off + length d <= length m ->
  blit m off d = Ok (firstn off m ++ d ++ skipn (off + length d) m).
Proof. intros. unfold blit. destruct (Nat.leb_spec (off + length d) (length m)); [reflexivity|lia]. Qed.

Lemma blit_length m off d m' : blit m off d = Ok m' -> length m' = length m.
Proof.
  unfold blit. destruct (Nat.leb_spec (off + length d) (length m)); [|discriminate].
  intros E. injection E as <-. rewrite !app_length, firstn_length, skipn_length. lia.
Qed.

Lemma blit_front m off d m' : blit m off d = Ok m' -> firstn off m' = firstn off m.
Proof.
  unfold blit. destruct (Nat.leb_spec (off + length d) (length m)); [|discriminate].
  intros E. injection E as <-. rewrite firstn_app, firstn_firstn, firstn_length.
  replace (off - Nat.min off (length m)) with 0 by lia. cbn [firstn]. rewrite app_nil_r.
  now rewrite Nat.min_id.
Qed.

Lemma blit_upto m off d m' k : blit m off d = Ok m' -> k <= length d ->
  firstn (off + k) m' = firstn off m ++ firstn k d.
Proof.
  unfold blit. destruct (Nat.leb_spec (off + length d) (length m)); [|discriminate].
  intros E Hk. injection E as <-. rewrite firstn_app, firstn_firstn, firstn_length.
  rewrite !Nat.min_r by lia.
  replace (off + k - Nat.min off (length m)) with k by lia.
  rewrite firstn_app. replace (k - length d) with 0 by lia. cbn [firstn]. now rewrite app_nil_r.
Qed.

Lemma blit_nth m off d m' k : blit m off d = Ok m' -> k < length d ->
  nth_error m' (off + k) = nth_error d k.
Proof.
  unfold blit. destruct (Nat.leb_spec (off + length d) (length m)); [|discriminate].
  intros E Hk. injection E as <-.
  rewrite nth_error_app2; rewrite firstn_length; [|lia].
  replace (off + k - Nat.min off (length m)) with k by lia.
  now rewrite nth_error_app1.
Qed.

(** ** The invariant *)
Record R (k : nat) (b : buf) (s : st) : Prop := {
  r_len : length (mem b) = size b;
  r_pos : pos b = Z.of_nat (length (txt s));
  r_fit : length (txt s) + room s <= size b;
  r_txt : firstn (length (txt s)) (mem b) = map Some (txt s);
  r_peak : length (txt s) <= peak s;
  r_size : size b <= Nat.max static_size (2 * peak s);
  r_min : static_size <= size b;
  r_static : heap b = false -> size b = static_size;
  r_live : live b = k + (if heap b then 1 else 0);
  r_lim : (N.of_nat (peak s) < 2 ^ 62)%N;
  r_sv : (N.of_nat static_size = 4096)%N;
  r_nul : nul s = true -> nth_error (mem b) (length (txt s)) = Some (Some 0%N)
}.

Lemma R_used k b s : R k b s -> used b = length (txt s).
Proof. intros [] *. unfold used. rewrite r_pos0. rewrite Z.mod_small by lia. lia. Qed.

Lemma R_init k : R k (init_with k) start.
Proof.
  pose proof static_val as SV.
  constructor; cbn [init_with start mem size pos heap live txt room peak nul length]; try lia; try reflexivity.
Qed.

Lemma R_available k b s : R k b s -> available b = to_int (Z.of_nat (size b - length (txt s))).
Proof.
  intros H. unfold available. rewrite (R_used k b s H). destruct H.
  assert (Hlt : length (txt s) <= size b) by lia.
  rewrite Z.mod_small by lia. f_equal. lia.
Qed.

(** the state after asking for [n] more bytes *)
Definition asked (s : st) (n : nat) : st :=
  {| txt := txt s; room := Nat.max (room s) n;
     peak := Nat.max (peak s) (length (txt s) + n); nul := false |}.

Lemma firstn_realloc m n k : k <= n -> k <= length m -> firstn k (realloc m n) = firstn k m.
Proof.
  intros. unfold realloc. rewrite firstn_app, firstn_firstn, firstn_length.
  replace (k - Nat.min n (length m)) with 0 by lia. cbn [firstn]. rewrite app_nil_r. f_equal. lia.
Qed.

Lemma ensure_R k b s n : R k b s -> (N.of_nat (length (txt s) + n) < 2 ^ 62)%N ->
  exists b', ensure b n = Ok b' /\ R k b' (asked s n).
Proof.
  intros H Hn. pose proof (R_used k b s H) as U. unfold ensure. rewrite U.
  rewrite (w64_small (length (txt s) + n)) by lia.
  destruct (Nat.ltb_spec (size b) (length (txt s) + n)) as [L|L].
  - destruct (heap b) eqn:Hh.
    + eexists; split; [reflexivity|]. destruct H. rewrite w64_small by lia.
      set (ns := Nat.max (size b * 2) (length (txt s) + n)).
      constructor; cbn [mem size pos heap live txt room peak nul asked]; try lia.
      * unfold realloc, fresh. rewrite app_length, firstn_length, repeat_length. lia.
      * rewrite firstn_realloc by lia. auto.
      * rewrite r_live0, Hh. reflexivity.
    + rewrite (w64_small ((length (txt s) + n) * 2)) by lia.
      unfold front. destruct H. destruct (Nat.leb_spec (length (txt s)) (length (mem b))); [|lia].
      cbn [bind]. set (ns := (length (txt s) + n) * 2).
      assert (LF : length (firstn (length (txt s)) (mem b)) = length (txt s)) by (rewrite firstn_length; lia).
      assert (FL : length (fresh ns) = ns) by apply repeat_length.
      destruct (blit (fresh ns) 0 (firstn (length (txt s)) (mem b))) as [m| |] eqn:E;
        try (exfalso; rewrite blit_ok in E by lia; congruence).
      cbn [bind]. eexists; split; [reflexivity|].
      constructor; cbn [mem size pos heap live txt room peak nul asked]; try lia.
      * apply blit_length in E. lia.
      * pose proof (blit_upto _ _ _ _ (length (txt s)) E) as B. rewrite LF in B.
        specialize (B (Nat.le_refl _)). cbn [Nat.add firstn app] in B. rewrite B.
        rewrite firstn_firstn, Nat.min_id. auto.
      * rewrite r_live0, Hh. lia.
  - eexists; split; [reflexivity|]. destruct H.
    constructor; cbn [mem size pos heap live txt room peak nul asked]; try lia; auto.
Qed.

Lemma put_R k b s (d : list N) : R k b s -> length d <= size b - length (txt s) ->
  exists b', put b (map Some d) = Ok b' /\ size b' = size b /\
    R k b' {| txt := txt s; room := room s; peak := peak s; nul := false |} /\
    firstn (length (txt s) + length d) (mem b') = map Some (txt s ++ d) /\
    (forall i, i < length d -> nth_error (mem b') (length (txt s) + i) = nth_error (map Some d) i).
Proof.
  intros H Hd. unfold put. destruct H. rewrite r_pos0.
  destruct (Z.ltb_spec (Z.of_nat (length (txt s))) 0); [lia|]. rewrite Nat2Z.id.
  destruct (blit (mem b) (length (txt s)) (map Some d)) as [m| |] eqn:E;
    try (exfalso; rewrite blit_ok in E by (rewrite map_length; lia); congruence).
  cbn [bind]. eexists; split; [reflexivity|]. split; [reflexivity|]. split.
  - constructor; cbn [mem size pos heap live txt room peak nul]; auto.
    + apply blit_length in E. lia.
    + rewrite (blit_front _ _ _ _ E). auto.
    + intros; discriminate.
  - cbn [mem]. split.
    + rewrite (blit_upto _ _ _ _ (length d) E) by (rewrite map_length; lia).
      rewrite r_txt0, map_app. f_equal. rewrite <- (map_length Some d). apply firstn_all.
    + intros i Hi. apply (blit_nth _ _ _ _ i E). now rewrite map_length.
Qed.

(** append: put then advance over a prefix of what was stored *)
Lemma advance_R k b s (d : list N) p n rm : R k b s ->
  length (txt s) + length d + rm <= size b -> length (txt s) + length d <= p -> peak s <= p ->
  (N.of_nat p < 2 ^ 62)%N ->
  firstn (length (txt s) + length d) (mem b) = map Some (txt s ++ d) ->
  (n = true -> nth_error (mem b) (length (txt s) + length d) = Some (Some 0%N)) ->
  R k (advance b (Z.of_nat (length d))) {| txt := txt s ++ d; room := rm; peak := p; nul := n |}.
Proof.
  intros H F P1 P2 P3 T N. destruct H.
  constructor; cbn [mem size pos heap live txt room peak nul advance]; rewrite ?app_length; auto; try lia.
Qed.

Lemma request_le s o : length (txt s) + request o <= demand s o.
Proof. unfold demand. lia. Qed.
Lemma peak_le s o : peak s <= demand s o.
Proof. unfold demand. lia. Qed.

Lemma add_R k b s d : R k b s -> legal s (Add d) ->
  exists b', add b d = Ok b' /\ R k b' (append s (Add d) d false).
Proof.
  intros H [L _]. pose proof (request_le s (Add d)) as Q. pose proof (peak_le s (Add d)) as PK.
  cbn [request] in Q. unfold add.
  destruct (ensure_R k b s (length d) H) as (b1 & -> & H1); [lia|]. cbn [bind].
  destruct (put_R k b1 _ d H1) as (b2 & -> & Sz & H2 & F & _).
  { destruct H1. cbn [asked txt room] in *. lia. }
  cbn [bind]. eexists; split; [reflexivity|]. cbn [asked txt] in *.
  apply (advance_R k b2 _ d _ _ _ H2); cbn [txt peak asked]; auto; try lia.
  destruct H1. cbn [asked txt room] in *. lia.
Qed.

Lemma fill_R k b s d : R k b s -> legal s (Fill d) ->
  exists b', fill b d = Ok b' /\ R k b' (append s (Fill d) d false).
Proof.
  intros H [L LR]. pose proof (request_le s (Fill d)) as Q. pose proof (peak_le s (Fill d)) as PK.
  cbn [request] in Q. unfold fill.
  destruct (put_R k b s d H) as (b2 & -> & Sz & H2 & F & _).
  { destruct H. lia. }
  cbn [bind]. eexists; split; [reflexivity|].
  apply (advance_R k b2 _ d _ _ _ H2); cbn [txt peak]; auto; try lia.
  destruct H. lia.
Qed.

(** vsnprintf into a buffer *)
Lemma vsnprintf_R k b s n t : R k b s -> (N.of_nat (length t) < 2 ^ 31)%N ->
  Nat.min n (length t + 1) <= size b - length (txt s) ->
  exists b', vsnprintf b n (Some t) = Ok (b', Z.of_nat (length t)) /\ size b' = size b /\
    R k b' {| txt := txt s; room := room s; peak := peak s; nul := false |} /\
    (length t < n -> firstn (length (txt s) + length t) (mem b') = map Some (txt s ++ t) /\
                     nth_error (mem b') (length (txt s) + length t) = Some (Some 0%N)).
Proof.
  intros H Ht Hn. unfold vsnprintf. destruct (Z.ltb_spec (Z.of_nat (length t)) (2 ^ 31)); [|lia].
  destruct n as [|m].
  - eexists; split; [reflexivity|]. split; [reflexivity|]. split; [|lia].
    destruct H. constructor; auto. intros; discriminate.
  - destruct (put_R k b s (firstn m t ++ [0%N]) H) as (b2 & -> & Sz & H2 & F & Nt).
    { rewrite app_length, firstn_length. cbn [length]. lia. }
    cbn [bind]. eexists; split; [reflexivity|]. split; [auto|]. split; [auto|]. intros Hm.
    assert (FA : firstn m t = t) by (apply firstn_all2; lia). rewrite FA in F, Nt.
    split.
    + assert (FF := f_equal (firstn (length (txt s) + length t)) F).
      rewrite firstn_firstn in FF. rewrite app_length in FF. cbn [length] in FF.
      rewrite Nat.min_l in FF by lia. rewrite FF.
      rewrite app_assoc, map_app, firstn_app, map_length, app_length, Nat.sub_diag. cbn [firstn].
      rewrite app_nil_r. apply firstn_all2. rewrite map_length, app_length. lia.
    + rewrite Nt by (rewrite app_length; cbn [length]; lia).
      rewrite map_app, nth_error_app2 by (rewrite map_length; lia).
      rewrite map_length, Nat.sub_diag. reflexivity.
Qed.

(** what the int conversion of the free space lets vsnprintf store is inside the buffer *)
Lemma to_size_room k b s (t : list N) : R k b s -> (N.of_nat (length t) < 2 ^ 31 - 1)%N ->
  Nat.min (to_size (available b)) (length t + 1) <= size b - length (txt s).
Proof.
  intros H Ht. rewrite (R_available k b s H).
  pose proof (to_int_le (Z.of_nat (size b - length (txt s)))) as A.
  pose proof (to_int_range (Z.of_nat (size b - length (txt s)))) as B.
  pose proof (to_int_neg (Z.of_nat (size b - length (txt s)))) as C.
  destruct (Z.ltb_spec (to_int (Z.of_nat (size b - length (txt s)))) 0) as [D|D].
  - specialize (C ltac:(lia) D). lia.
  - unfold to_size. rewrite Z.mod_small by lia. lia.
Qed.

Lemma vprintf_R k b s t : R k b s -> legal s (Vprintf (Some t)) ->
  exists b', add_vprintf b (Some t) = Ok b' /\ R k b' (append s (Vprintf (Some t)) t true).
Proof.
  intros H [L (x & Ex & Lt)]. injection Ex as <-.
  pose proof (request_le s (Vprintf (Some t))) as Q. pose proof (peak_le s (Vprintf (Some t))) as PK.
  cbn [request] in Q. unfold add_vprintf.
  pose proof (to_size_room k b s t H Lt) as TR.
  destruct (vsnprintf_R k b s (to_size (available b)) t H) as (b1 & -> & Sz & H1 & F); [lia|auto|].
  cbn [bind]. destruct (Z.gtb_spec (Z.of_nat (length t)) (available b - 1)) as [G|G].
  - replace (Z.of_nat (length t) + 1)%Z with (Z.of_nat (length t + 1)) by lia.
    rewrite to_size_nat by lia.
    destruct (ensure_R k b1 _ (length t + 1) H1) as (b2 & -> & H2); [cbn [txt]; lia|]. cbn [bind].
    destruct (vsnprintf_R k b2 _ (length t + 1) t H2) as (b3 & -> & Sz3 & H3 & F3); [lia| |].
    { destruct H2. cbn [asked txt room] in *. lia. }
    cbn [bind]. eexists; split; [reflexivity|]. destruct F3 as [F3 N3]; [lia|].
    cbn [asked txt] in *.
    apply (advance_R k b3 _ t _ _ _ H3); cbn [txt peak asked]; auto; try lia.
    destruct H2. cbn [asked txt room] in *. lia.
  - eexists; split; [reflexivity|].
    assert (AV : length t < to_size (available b)).
    { pose proof (to_int_range (Z.of_nat (size b - length (txt s)))) as B.
      pose proof (R_available k b s H) as AE. rewrite AE in *.
      unfold to_size. rewrite Z.mod_small by lia. lia. }
    destruct (F AV) as [F1 N1]. cbn [txt] in *.
    apply (advance_R k b1 _ t _ _ _ H1); cbn [txt peak]; auto; try lia.
    destruct H. lia.
Qed.

(** the printf that looks at the free space once *)
Lemma maybe_R k b s t : R k b s -> (N.of_nat (size b) < 2 ^ 31)%N ->
  (N.of_nat (length t) < 2 ^ 31 - 1)%N ->
  (length t < size b - length (txt s) /\
   exists b', maybe_add_vprintf b (Some t) = Ok (b', 0%Z) /\ size b' = size b /\
     forall o, request o = length t + 1 -> (N.of_nat (demand s o) < 2 ^ 62)%N ->
               R k b' (append s o t true)) \/
  (size b - length (txt s) <= length t /\
   exists b', maybe_add_vprintf b (Some t) = Ok (b', Z.of_nat (length t + 1)) /\ size b' = size b /\
     R k b' {| txt := txt s; room := room s; peak := peak s; nul := false |}).
Proof.
  intros H Hs Ht. unfold maybe_add_vprintf.
  pose proof (to_size_room k b s t H Ht) as TR.
  pose proof (R_available k b s H) as AE.
  assert (LE : length (txt s) <= size b) by (destruct H; lia).
  rewrite to_int_small in AE by lia.
  destruct (vsnprintf_R k b s (to_size (available b)) t H) as (b1 & -> & Sz & H1 & F); [lia|auto|].
  cbn [bind]. rewrite AE in *. rewrite to_size_nat in * by lia.
  destruct (Z.gtb_spec (Z.of_nat (length t)) (Z.of_nat (size b - length (txt s)) - 1)) as [G|G].
  - right. split; [lia|].
    replace (Z.of_nat (length t) + 1)%Z with (Z.of_nat (length t + 1)) by lia.
    destruct (Z.gtb_spec (Z.of_nat (size b - length (txt s))) 0) as [P|P].
    + destruct (put_R k b1 _ [0%N] H1) as (b2 & E & Sz2 & H2 & _ & _).
      { cbn [length txt]. lia. }
      cbn [map] in E. rewrite E. cbn [bind]. eexists; split; [reflexivity|]. split; [lia|].
      exact H2.
    + cbn [bind]. eexists; split; [reflexivity|]. split; [lia|]. exact H1.
  - left. split; [lia|]. destruct F as [F1 N1]; [lia|].
    eexists; split; [reflexivity|]. split; [auto|]. intros o Ho Hd.
    pose proof (request_le s o) as Q. pose proof (peak_le s o) as PK. rewrite Ho in Q.
    cbn [txt] in *.
    apply (advance_R k b1 _ t _ _ _ H1); cbn [txt peak]; auto; try lia.
    destruct H. lia.
Qed.

Lemma printf_R k b s t : R k b s -> legal s (Printf (Some t)) ->
  exists b', add_printf b (Some t) = Ok b' /\ R k b' (append s (Printf (Some t)) t true).
Proof.
  intros H [L [_ Lt]].
  pose proof (request_le s (Printf (Some t))) as Q. pose proof (peak_le s (Printf (Some t))) as PK.
  cbn [request] in Q. unfold add_printf.
  assert (SZ : (N.of_nat (size b) < 2 ^ 31)%N) by (destruct H; lia).
  destruct (maybe_R k b s t H SZ) as [[Fit (b1 & -> & _ & H1)]|[Nofit (b1 & -> & Sz1 & H1)]]; [lia| |].
  - cbn [bind]. eexists; split; [reflexivity|]. apply H1; auto.
  - cbn [bind]. destruct (Z.eqb_spec (Z.of_nat (length t + 1)) 0); [lia|].
    rewrite to_size_nat by lia.
    destruct (ensure_R k b1 _ (length t + 1) H1) as (b2 & -> & H2); [cbn [txt]; lia|]. cbn [bind].
    assert (SZ2 : (N.of_nat (size b2) < 2 ^ 31)%N).
    { destruct H2. cbn [asked peak txt] in *. lia. }
    destruct (maybe_R k b2 _ t H2 SZ2) as [[Fit (b3 & -> & _ & H3)]|[Nf _]]; [lia| |].
    + cbn [bind]. cbn [Z.eqb]. eexists; split; [reflexivity|].
      assert (D : demand (asked {| txt := txt s; room := room s; peak := peak s; nul := false |}
                            (length t + 1)) (Printf (Some t)) = demand s (Printf (Some t))).
      { unfold demand. cbn [request asked txt peak]. lia. }
      specialize (H3 (Printf (Some t)) eq_refl). rewrite D in H3. specialize (H3 L).
      unfold append in *. rewrite D in H3. cbn [asked txt room] in H3.
      destruct H3. constructor; cbn [txt room peak nul] in *; auto; lia.
    + exfalso. destruct H2. cbn [asked txt room] in *. lia.
Qed.

Lemma step_R k b s o : R k b s -> legal s o ->
  exists b' s', step b o = Ok b' /\ spec_step s o s' /\ R k b' s'.
Proof.
  intros H L. destruct o as [d|n|t|t|t|d| |]; cbn [step].
  - destruct (add_R k b s d H L) as (b' & E & H'). eexists _, _. split; [exact E|]. split; [constructor|auto].
  - destruct L as [L _]. pose proof (request_le s (Ensure n)) as Q. cbn [request] in Q.
    destruct (ensure_R k b s n H) as (b' & E & H'); [lia|].
    eexists _, _. split; [exact E|]. split; [constructor|exact H'].
  - destruct L as [L (x & -> & Lx)].
    destruct (vprintf_R k b s x H) as (b' & E & H'); [split; eauto|].
    eexists _, _. split; [exact E|]. split; [constructor|exact H'].
  - destruct L as [L [(x & ->) Lx]].
    pose proof (request_le s (MaybeVprintf (Some x))) as Q.
    pose proof (peak_le s (MaybeVprintf (Some x))) as PK. cbn [request] in Q.
    assert (SZ : (N.of_nat (size b) < 2 ^ 31)%N) by (destruct H; lia).
    destruct (maybe_R k b s x H SZ) as [[Fit (b1 & -> & _ & H1)]|[Nofit (b1 & -> & Sz1 & H1)]]; [lia| |].
    + cbn [bind fst]. eexists _, _. split; [reflexivity|]. split; [apply s_maybe_yes|].
      apply H1; auto.
    + cbn [bind fst]. eexists _, _. split; [reflexivity|]. split; [apply s_maybe_no|].
      unfold append. cbn [length]. rewrite app_nil_r, Nat.sub_0_r. destruct H1.
      constructor; cbn [txt room peak nul] in *; auto; lia.
  - destruct L as [L [(x & ->) Lx]].
    destruct (printf_R k b s x H) as (b' & E & H'); [split; eauto|].
    eexists _, _. split; [exact E|]. split; [constructor|exact H'].
  - destruct (fill_R k b s d H L) as (b' & E & H'). eexists _, _. split; [exact E|]. split; [constructor|auto].
  - eexists _, _. split; [reflexivity|]. split; [constructor|]. destruct H.
    constructor; cbn [reset mem size pos heap live txt room peak nul length firstn map] in *; auto; try lia.
  - eexists _, _. split; [reflexivity|]. split; [constructor|].
    replace (destroy b) with (init_with k).
    2:{ unfold destroy. destruct H. rewrite r_live0. destruct (heap b); f_equal; lia. }
    pose proof (R_init k) as I. destruct H, I.
    constructor; cbn [start mem size pos heap live txt room peak nul length] in *; auto; try lia.
Qed.

Lemma run_R k ops : forall b s, R k b s -> legal_run s ops ->
  exists b' s', run b ops = Ok b' /\ spec_run s ops s' /\ R k b' s'.
Proof.
  induction ops as [|o r IH]; intros b s H L.
  - eexists _, _. split; [reflexivity|]. split; [constructor|auto].
  - inversion L as [|? ? ? L1 L2]; subst.
    destruct (step_R k b s o H L1) as (b1 & s1 & E & St & H1).
    destruct (IH b1 s1 H1 (L2 _ St)) as (b2 & s2 & E2 & St2 & H2).
    eexists _, _. cbn [run]. rewrite E. cbn [bind]. split; [exact E2|]. split; [econstructor; eauto|auto].
Qed.

Lemma contents ops : legal_run start ops ->
  exists b s, run init ops = Ok b /\ spec_run start ops s /\
    region b = map Some (txt s) /\ used b = length (txt s) /\
    used b + room s <= size b /\ size b = length (mem b) /\
    (nul s = true -> nth_error (mem b) (used b) = Some (Some 0%N)).
Proof.
  intros L. destruct (run_R 0 ops init start (R_init 0) L) as (b & s & E & St & H).
  exists b, s. pose proof (R_used 0 b s H) as U. unfold region. rewrite U. destruct H. repeat split; auto.
Qed.

Lemma footprint ops : legal_run start ops ->
  exists b s, run init ops = Ok b /\ spec_run start ops s /\
    size b <= Nat.max static_size (2 * peak s) /\
    live b = (if heap b then 1 else 0) /\ live (destroy b) = 0 /\
    (peak s <= static_size -> heap b = false -> live b = 0).
Proof.
  intros L. destruct (run_R 0 ops init start (R_init 0) L) as (b & s & E & St & H).
  exists b, s. destruct H. repeat split; auto.
  - unfold destroy, init_with. cbn [live]. rewrite r_live0. destruct (heap b); reflexivity.
  - intros _ Hh. rewrite r_live0, Hh. reflexivity.
Qed.

Lemma detach_R k b s : R k b s ->
  exists m, detach b = Ok (m, init_with (k + 1)) /\
    firstn (length (txt s) + 1) m = map Some (txt s ++ [0%N]) /\ length (txt s) < length m.
Proof.
  intros H. unfold detach. rewrite (R_used k b s H). destruct H.
  assert (Z1 : length (map Some (A:=N) [0%N]) = 1) by reflexivity.
  destruct (negb (heap b) || Nat.eqb (length (txt s)) (size b)) eqn:C.
  - unfold front. destruct (Nat.leb_spec (length (txt s)) (length (mem b))); [|lia].
    cbn [bind]. rewrite w64_small by lia.
    assert (LF : length (firstn (length (txt s)) (mem b)) = length (txt s)) by (rewrite firstn_length; lia).
    assert (FL : length (fresh (length (txt s) + 1)) = length (txt s) + 1) by apply repeat_length.
    destruct (blit (fresh (length (txt s) + 1)) 0 (firstn (length (txt s)) (mem b))) as [m| |] eqn:E;
      try (exfalso; rewrite blit_ok in E by lia; congruence).
    cbn [bind]. assert (LM : length m = length (txt s) + 1) by (apply blit_length in E; lia).
    destruct (blit m (length (txt s)) [Some 0%N]) as [m'| |] eqn:E';
      try (exfalso; rewrite blit_ok in E' by (cbn [length]; lia); congruence).
    cbn [bind]. exists m'. split.
    { do 3 f_equal. rewrite r_live0. destruct (heap b); cbn [negb orb] in C; lia. }
    split; [|apply blit_length in E'; lia].
    rewrite (blit_upto _ _ _ _ 1 E') by (cbn [length]; lia). rewrite map_app. f_equal.
    pose proof (blit_upto _ _ _ _ (length (txt s)) E) as B. rewrite LF in B.
    specialize (B (Nat.le_refl _)). cbn [Nat.add firstn app] in B. rewrite B.
    rewrite firstn_firstn, Nat.min_id. auto.
  - apply orb_false_iff in C. destruct C as [C1 C2]. apply negb_false_iff in C1.
    apply Nat.eqb_neq in C2. cbn [bind].
    destruct (blit (mem b) (length (txt s)) [Some 0%N]) as [m'| |] eqn:E';
      try (exfalso; rewrite blit_ok in E' by (cbn [length]; lia); congruence).
    cbn [bind]. exists m'. split.
    { do 3 f_equal. rewrite r_live0, C1. reflexivity. }
    split; [|apply blit_length in E'; lia].
    rewrite (blit_upto _ _ _ _ 1 E') by (cbn [length]; lia). rewrite map_app. f_equal. auto.
Qed.

Lemma detached ops : legal_run start ops ->
  exists b s m, run init ops = Ok b /\ spec_run start ops s /\ detach b = Ok (m, init_with 1) /\
    firstn (length (txt s) + 1) m = map Some (txt s ++ [0%N]).
Proof.
  intros L. destruct (run_R 0 ops init start (R_init 0) L) as (b & s & E & St & H).
  destruct (detach_R 0 b s H) as (m & D & F & _). exists b, s, m. auto.
Qed.

(** maybe_add_vprintf says what it did *)
Lemma maybe_exact ops t : legal_run start (ops ++ [MaybeVprintf (Some t)]) ->
  exists b b' r, run init ops = Ok b /\ maybe_add_vprintf b (Some t) = Ok (b', r) /\
    ((length t < size b - used b /\ r = 0%Z /\ region b' = region b ++ map Some t) \/
     (size b - used b <= length t /\ r = Z.of_nat (length t + 1) /\ region b' = region b)).
Proof.
  intros L.
  assert (SPLIT : forall ops s, legal_run s (ops ++ [MaybeVprintf (Some t)]) ->
    legal_run s ops /\ forall s', spec_run s ops s' -> legal s' (MaybeVprintf (Some t))).
  { clear. induction ops as [|o r IH]; cbn [app]; intros s L.
    - inversion L; subst. split; [constructor|]. intros s' St. inversion St; subst. auto.
    - inversion L as [|? ? ? L1 L2]; subst. split.
      + constructor; auto. intros s' St. apply (IH s'). auto.
      + intros s' St. inversion St; subst. eapply IH; eauto. }
  destruct (SPLIT _ _ L) as [L1 L2].
  destruct (run_R 0 ops init start (R_init 0) L1) as (b & s & E & St & H).
  specialize (L2 s St). destruct L2 as [L2 [_ L3]].
  pose proof (request_le s (MaybeVprintf (Some t))) as Q.
  pose proof (peak_le s (MaybeVprintf (Some t))) as PK. cbn [request] in Q.
  assert (SZ : (N.of_nat (size b) < 2 ^ 31)%N) by (destruct H; lia).
  pose proof (R_used 0 b s H) as U.
  destruct (maybe_R 0 b s t H SZ) as [[Fit (b1 & E1 & _ & H1)]|[Nofit (b1 & E1 & Sz1 & H1)]]; [lia| |].
  - exists b, b1, 0%Z. split; [auto|]. split; [auto|]. left. rewrite U. split; [auto|]. split; [auto|].
    specialize (H1 (MaybeVprintf (Some t)) eq_refl L2). unfold region. rewrite (R_used _ _ _ H1), U.
    rewrite (r_txt _ _ _ H1), (r_txt _ _ _ H). apply map_app.
  - exists b, b1, (Z.of_nat (length t + 1)). split; [auto|]. split; [auto|]. right. rewrite U.
    split; [auto|]. split; [auto|]. unfold region. rewrite (R_used _ _ _ H1), U.
    rewrite (r_txt _ _ _ H). exact (r_txt _ _ _ H1).
Qed.

(** ** Where formatting goes wrong *)
(** an encoding error moves the write position back by one *)
Lemma vprintf_error_R k b s : R k b s -> (N.of_nat (size b) < 2 ^ 31)%N ->
  add_vprintf b None = Ok (advance b (-1)) /\ add_printf b None = Ok (advance b (-1)).
Proof.
  intros H Hs. unfold add_vprintf, add_printf, maybe_add_vprintf. cbn [vsnprintf bind].
  pose proof (R_available k b s H) as AE.
  assert (LE : length (txt s) <= size b) by (destruct H; lia).
  rewrite to_int_small in AE by lia. rewrite AE.
  destruct (Z.gtb_spec (-1) (Z.of_nat (size b - length (txt s)) - 1)); [lia|]. auto.
Qed.

Lemma spec_small ops : forall s s', spec_run s ops s' ->
  forall m, (N.of_nat (peak s) < m)%N -> legal_run s ops ->
  (forall o, In o ops -> exists t, o = Add t) ->
  (N.of_nat (length (concat (map (fun o => match o with Add t => t | _ => [] end) ops)) + length (txt s)) < m)%N ->
  (N.of_nat (peak s') < m)%N.
Proof.
  induction ops as [|o r IH]; intros s s' St m P L A B.
  - inversion St; subst. auto.
  - inversion St as [|? ? s1 ? ? S1 S2]; subst. inversion L as [|? ? ? L1 L2]; subst.
    destruct (A o (or_introl eq_refl)) as [t ->]. inversion S1; subst.
    cbn [map concat] in B. rewrite app_length in B.
    eapply IH; eauto.
    + cbn [append peak]. unfold demand. cbn [request]. lia.
    + intros o Ho. apply A. now right.
    + cbn [append txt]. rewrite app_length. lia.
Qed.

Lemma error_rewinds data : data <> [] -> (N.of_nat (length data) < 2 ^ 30)%N ->
  exists b1 b2 b3, run init [Add data] = Ok b1 /\ run init [Add data; Vprintf None] = Ok b2 /\
    run init [Add data; Printf None] = Ok b3 /\
    region b1 = map Some data /\ region b2 = map Some (removelast data) /\
    region b3 = map Some (removelast data).
Proof.
  intros Hd HL.
  assert (L : legal_run start [Add data]).
  { constructor; [|constructor]. split; [|exact I]. unfold demand. cbn [start peak txt request length]. lia. }
  destruct (run_R 0 [Add data] init start (R_init 0) L) as (b & s & E & St & H).
  assert (PK : (N.of_nat (peak s) < 2 ^ 30)%N).
  { eapply spec_small; eauto.
    - cbn. lia.
    - intros o [<-|[]]. eauto.
    - cbn [map concat start txt length]. rewrite app_nil_r. lia. }
  assert (TX : txt s = data).
  { inversion St as [|? ? s1 ? ? S1 S2]; subst. inversion S2; subst. inversion S1; subst. reflexivity. }
  assert (SZ : (N.of_nat (size b) < 2 ^ 31)%N) by (destruct H; lia).
  destruct (vprintf_error_R 0 b s H SZ) as [E1 E2].
  assert (RN : forall o x, step b o = Ok x -> run init [Add data; o] = Ok x).
  { intros o x Eo. cbn [run] in E |- *. destruct (step init (Add data)); try discriminate.
    cbn [bind] in E |- *. injection E as ->. rewrite Eo. reflexivity. }
  exists b, (advance b (-1)), (advance b (-1)).
  split; [auto|]. split; [apply RN; auto|]. split; [apply RN; auto|].
  assert (RG : region b = map Some data).
  { unfold region. rewrite (R_used _ _ _ H), (r_txt _ _ _ H), TX. reflexivity. }
  assert (RG2 : region (advance b (-1)) = map Some (removelast data)).
  { unfold region, used. cbn [advance pos mem]. rewrite (r_pos _ _ _ H), TX.
    destruct data as [|a l]; [congruence|]. cbn [length].
    replace (Z.to_nat ((Z.of_nat (S (length l)) + -1) mod 2 ^ 64)) with (length l) by
      (rewrite Z.mod_small; cbn [length] in *; lia).
    pose proof (r_txt _ _ _ H) as T. rewrite TX in T. cbn [length] in T.
    assert (T' := f_equal (firstn (length l)) T). rewrite firstn_firstn in T'.
    rewrite Nat.min_l in T' by lia. rewrite T'.
    rewrite firstn_map. f_equal. clear. revert a. induction l as [|c l IH]; intros a; [reflexivity|].
    cbn [length firstn]. rewrite (IH c). reflexivity. }
  auto.
Qed.

(** on an empty buffer the position ends in front of the data and the next append is undefined *)
Lemma error_underruns : exists b, run init [Vprintf None] = Ok b /\ (pos b < 0)%Z /\
  forall d, d <> [] -> (N.of_nat (length d) < 2 ^ 12)%N -> step b (Fill d) = Ub.
Proof.
  destruct (vprintf_error_R 0 init start (R_init 0)) as [E _];
    [pose proof static_val; cbn [init init_with size]; lia|].
  eexists. split; [cbn [run step]; rewrite E; cbn [bind]; reflexivity|]. split; [cbn; lia|].
  intros d _ _. reflexivity.
Qed.

(** 2 GiB of free space: the printf that does not take a va_list aborts *)
Lemma big_free_aborts k b s t : R k b s -> (2 ^ 31 <= Z.of_nat (size b - length (txt s)) < 2 ^ 32)%Z ->
  (N.of_nat (length t) < 2 ^ 31 - 1)%N -> add_printf b (Some t) = Abort.
Proof.
  intros H Hf Ht. unfold add_printf, maybe_add_vprintf.
  assert (AV : forall b', R k b' {| txt := txt s; room := room s; peak := peak s; nul := false |} ->
             size b' = size b -> (available b' < 0)%Z).
  { intros b' H' Sz. rewrite (R_available _ _ _ H'), Sz. cbn [txt]. unfold to_int.
    destruct (_ <? _)%Z eqn:C; lia. }
  assert (H0 : R k b {| txt := txt s; room := room s; peak := peak s; nul := false |}).
  { destruct H. constructor; auto. intros; discriminate. }
  pose proof (to_size_room k b s t H Ht) as TR.
  destruct (vsnprintf_R k b s (to_size (available b)) t H) as (b1 & -> & Sz & H1 & F); [lia|auto|].
  cbn [bind]. pose proof (AV b H0 eq_refl) as A0.
  destruct (Z.gtb_spec (Z.of_nat (length t)) (available b - 1)); [|lia].
  destruct (Z.gtb_spec (available b) 0); [lia|]. cbn [bind].
  replace (Z.of_nat (length t) + 1)%Z with (Z.of_nat (length t + 1)) by lia.
  destruct (Z.eqb_spec (Z.of_nat (length t + 1)) 0); [lia|].
  rewrite to_size_nat by lia.
  assert (EN : ensure b1 (length t + 1) = Ok b1).
  { unfold ensure. rewrite (R_used _ _ _ H1). cbn [txt]. rewrite w64_small by (destruct H; lia).
    destruct (Nat.ltb_spec (size b1) (length (txt s) + (length t + 1))); [|reflexivity]. lia. }
  rewrite EN. cbn [bind].
  pose proof (AV b1 H1 Sz) as A1.
  pose proof (to_size_room k b1 _ t H1 Ht) as TR1.
  destruct (vsnprintf_R k b1 _ (to_size (available b1)) t H1) as (b2 & -> & Sz2 & HH2 & F2); [lia|auto|].
  cbn [bind].
  destruct (Z.gtb_spec (Z.of_nat (length t)) (available b1 - 1)); [|lia].
  destruct (Z.gtb_spec (available b1) 0); [lia|]. cbn [bind].
  destruct (Z.eqb_spec (Z.of_nat (length t) + 1) 0); [lia|]. reflexivity.
Qed.

Lemma printf_aborts n t : (2 ^ 30 <= Z.of_nat n < 2 ^ 31)%Z -> (N.of_nat (length t) < 2 ^ 31 - 1)%N ->
  run init [Ensure n; Printf (Some t)] = Abort.
Proof.
  intros Hn Ht. cbn [run step].
  assert (EN : exists b', ensure init n = Ok b' /\ size b' = n * 2 /\ R 0 b' (asked start n)).
  { destruct (ensure_R 0 init start n (R_init 0)) as (b' & E & H); [cbn [start txt length]; lia|].
    exists b'. split; [auto|]. split; [|auto].
    unfold ensure in E. rewrite (R_used 0 init start (R_init 0)) in E.
    cbn [start txt length Nat.add] in E. rewrite (w64_small n) in E by lia.
    rewrite (w64_small (n * 2)) in E by lia.
    change (size init) with static_size in E.
    destruct (Nat.ltb_spec static_size n) as [|G]; [|exfalso; clear E; pose proof static_val; lia].
    change (heap init) with false in E. cbv iota in E.
    destruct (front (mem init) 0); cbn [bind] in E; try discriminate.
    destruct (blit (fresh (n * 2)) 0 a); cbn [bind] in E; try discriminate.
    injection E as <-. reflexivity. }
  destruct EN as (b' & -> & Sz & H). cbn [bind].
  rewrite (big_free_aborts 0 b' _ t H); auto. cbn [asked txt start length]. lia.
Qed.

(** libcurl's callback takes everything offered *)
Lemma curl_R k b s p sz nm : R k b s -> sz * nm = length p -> legal s (Add p) ->
  exists b', curl_write b p sz nm = Ok (b', length p) /\ R k b' (append s (Add p) p false).
Proof.
  intros H E L. pose proof (request_le s (Add p)) as Q. cbn [request] in Q.
  pose proof L as [L1 _]. unfold curl_write. rewrite E, w64_small by lia.
  rewrite Nat.leb_refl, firstn_all. destruct (add_R k b s p H L) as (b' & -> & H').
  cbn [bind]. eauto.
Qed.
