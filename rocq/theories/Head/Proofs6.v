From Coq Require Import NArith ZArith List Bool String Lia ZifyBool ZifyNat ZifyN.
From Verif.Head Require Import Model Spec Proofs Proofs2 Proofs3 Proofs4 Proofs5.
Import ListNotations.
Local Open Scope string_scope.
Local Open Scope list_scope.
Local Open Scope nat_scope.

(** * A line over two blocks *)

Lemma crlf_at_iff : forall d i, crlf_at d i = true <-> exists r, skipn i d = 13%N :: 10%N :: r.
Proof. intros. unfold crlf_at. rewrite front_iff. reflexivity. Qed.

Lemma crlf_not_after : forall q t i, ~ In 10%N t -> List.length q + 1 <= i ->
  crlf_at ((q ++ [13%N; 10%N]) ++ t) i = false.
Proof.
  intros q t i N L. destruct (crlf_at _ i) eqn:C; auto. exfalso. apply crlf_at_iff in C as [r E].
  rewrite <- app_assoc in E. rewrite skipn_app in E. rewrite skipn_all2 in E by lia. cbn [app] in E.
  destruct (i - List.length q) as [|[|j]] eqn:J; [lia| |].
  - cbn in E. discriminate.
  - cbn [skipn] in E. apply N.
    assert (In 10%N (skipn j t)) by (rewrite E; right; left; reflexivity).
    rewrite <- (firstn_skipn j t). apply in_app_iff. auto.
Qed.
Lemma back_finds : forall q t n, ~ In 10%N t -> List.length q < n ->
  back ((q ++ [13%N; 10%N]) ++ t) n = Z.of_nat (List.length q + 2).
Proof.
  intros q t n N. induction n as [|n IH]; intro L; [lia|]. cbn [back].
  destruct (Nat.eq_dec n (List.length q)) as [->|D].
  - replace (crlf_at ((q ++ [13%N; 10%N]) ++ t) (List.length q)) with true; auto.
    symmetry. apply crlf_at_iff. exists t. rewrite <- app_assoc, skipn_exact. reflexivity.
  - rewrite crlf_not_after by (auto; lia). apply IH. lia.
Qed.
Lemma start_in_cross : forall q t, ~ In 10%N t -> t <> [] ->
  start_in ((q ++ [13%N; 10%N]) ++ t) = Some (Z.of_nat (List.length q + 2)).
Proof.
  intros q t N Ne. assert (Lt : 0 < List.length t) by (destruct t; [contradiction|cbn; lia]).
  unfold start_in. rewrite !app_length. cbn [List.length].
  replace (2 <? List.length q + 2 + List.length t) with true by lia.
  rewrite crlf_not_after by (auto; lia). rewrite back_finds by (auto; lia). reflexivity.
Qed.

(** what joining the two parts of a line comes to *)
Lemma join_cross : forall B q t u v, ~ In 10%N t -> one_line u ->
  join B (b_of B ((q ++ [13%N; 10%N]) ++ t)) (Z.of_nat (List.length q + 2)) (b_of B (u ++ 13%N :: 10%N :: v)) =
  if B <? List.length u + 2 + List.length t then Refused
  else if List.length t <? List.length u + 2 then Bad
  else Done (mkblk ((q ++ [13%N; 10%N]) ++ t) 0 (List.length t) B,
             mkblk (t ++ firstn (List.length u + 2) t) 0 (List.length u + 2 + List.length t) (List.length u + 2 + List.length t),
             mkblk (u ++ 13%N :: 10%N :: v) (List.length u + 2) (List.length v) B).
Proof.
  intros B q t u v N O. unfold join. rewrite data_b_of, memmem_line by auto.
  unfold b_of. cbn [size start mem allocd]. rewrite !app_length. cbn [List.length].
  replace (Z.to_nat (Z.of_nat (List.length q + 2 + List.length t) - Z.of_nat (List.length q + 2))) with (List.length t) by lia.
  destruct (B <? List.length u + 2 + List.length t); auto.
  replace (Z.of_nat 0 + Z.of_nat (List.length q + 2) <? 0)%Z with false by lia.
  destruct (List.length t <? List.length u + 2); auto.
  replace (Z.to_nat (Z.of_nat 0 + Z.of_nat (List.length q + 2))) with (List.length (q ++ [13%N; 10%N]))
    by (rewrite app_length; cbn; lia).
  rewrite skipn_exact, firstn_all. cbn [Nat.add].
  replace (List.length u + S (S (List.length v)) - (List.length u + 2)) with (List.length v) by lia. reflexivity.
Qed.

Lemma last_byte : forall (a t : bytes) j, t <> [] -> j = List.length (a ++ t) - 1 ->
  exists c, In c t /\ skipn j (a ++ t) = [c].
Proof.
  intros a t j Ne ->. destruct (exists_last Ne) as (t' & c & ->). exists c. split.
  - apply in_app_iff. right. left. reflexivity.
  - rewrite app_assoc, app_length. cbn [List.length]. rewrite Nat.add_sub. apply skipn_exact.
Qed.
Lemma skip_skip : forall (A : Type) x y (l : list A), skipn x (skipn y l) = skipn (y + x) l.
Proof. intros A x. induction y as [|y IH]; intro l; auto. destruct l; cbn [skipn Nat.add]; auto. apply skipn_nil. Qed.
Lemma cross_through : forall B d t d2 , ~ In 10%N t -> t <> [] -> 4 <= List.length d2 ->
  4 <= List.length (d ++ t) ->
  cross REQ_PATSIZE (b_of B (d ++ t)) (b_of B d2) true 0 = CThrough 3.
Proof.
  intros B d t d2 N Ne L2 L1.
  set (p := b_of B (d ++ t)).
  assert (Key : forall o, o < 3 -> 
     beq (firstn (REQ_PATSIZE - S o) (skipn (start p + size p - (REQ_PATSIZE - S o)) (mem p)))
         (firstn (REQ_PATSIZE - S o) (skipn (S o) REQ_PAT)) = false).
  { intros o Lo. apply beq_neq. intro E.
    destruct (last_byte d t _ Ne eq_refl) as (c & Ic & Sc).
    assert (E2 : skipn (REQ_PATSIZE - S o - 1) (firstn (REQ_PATSIZE - S o) (skipn (start p + size p - (REQ_PATSIZE - S o)) (mem p))) = [10%N]).
    { rewrite E. destruct o as [|[|[|o]]]; try lia; reflexivity. }
    rewrite firstn_all2 in E2. 
    - assert (E3 : skipn (REQ_PATSIZE - S o - 1) (skipn (start p + size p - (REQ_PATSIZE - S o)) (mem p)) = skipn (List.length (d ++ t) - 1) (d ++ t)).
      { cbn [p b_of start size mem].
        replace (List.length (d ++ t) - 1) with ((List.length (d ++ t) - (REQ_PATSIZE - S o)) + (REQ_PATSIZE - S o - 1))
          by (unfold REQ_PATSIZE; lia).
        rewrite skip_skip. reflexivity. }
      rewrite E3, Sc in E2. injection E2 as ->. contradiction.
    - rewrite skipn_length. cbn [p b_of start size mem]. lia. }
  assert (Step : forall f o, o < 3 -> cross (S f) p (b_of B d2) true o = cross f p (b_of B d2) true (S o)).
  { intros f o Lo. cbn [cross]. replace (o <? REQ_PATSIZE - 1) with true by (unfold REQ_PATSIZE; lia).
    change (size (b_of B d2)) with (List.length d2).
    replace (List.length d2 <=? o) with false by lia. cbn [andb].
    replace (List.length d2 <? S o) with false by lia.
    destruct (beq (firstn (S o) (data (b_of B d2))) _); auto.
    replace (start p + size p <? REQ_PATSIZE - S o) with false by (cbn [p b_of start size]; unfold REQ_PATSIZE; lia).
    rewrite Key by auto. reflexivity. }
  clearbody p. unfold REQ_PATSIZE. rewrite !Step by lia. reflexivity.
Qed.

Lemma fin_cross : forall B q t u v, let d1 := (q ++ [13%N; 10%N]) ++ t in let d2 := u ++ 13%N :: 10%N :: v in
  whole (d1 ++ d2) -> ~ In 10%N t -> t <> [] -> one_line u -> 2 <= List.length v -> 2 <= List.length q ->
  finalize B (mkinput [b_of B d1; b_of B d2] 0 0)
  = bind (dissect B [b_of B d1; b_of B d2]) (fun r => Done (Complete r [])).
Proof.
  intros B q t u v d1 d2 W N Ne O Lv Lq.
  assert (L2 : List.length d2 = List.length u + 2 + List.length v) by (subst d2; rewrite app_length; cbn; lia).
  assert (L1 : 4 < List.length d1) by (subst d1; rewrite !app_length; cbn; destruct t; [contradiction|cbn; lia]).
  assert (N2 : d2 <> []) by (intro Z; rewrite Z in L2; cbn in L2; lia).
  rewrite fin_two by (auto; lia). cbn [search]. unfold d1 at 1. rewrite cross_through by (auto; fold d1; lia).
  rewrite data_b_of. change (3 - REQ_PATSIZE) with 0. cbn [skipn].
  assert (M : memmem REQ_PAT d2 = Some (List.length d2 - 4)).
  { destruct (w_end _ W) as [x Ex]. 
    assert (X : exists y, d2 = y ++ REQ_PAT).
    { destruct (app_cut _ _ _ _ _ Ex) as (m & _ & ->).
      - assert (Y : List.length (d1 ++ d2) = List.length (x ++ REQ_PAT)) by (rewrite Ex; reflexivity).
        rewrite !app_length in Y. cbn [REQ_PAT List.length] in Y. lia.
      - exists m. reflexivity. }
    destruct X as [y Ey]. destruct (memmem REQ_PAT d2) as [k|] eqn:Mk.
    - destruct (memmem_some _ _ _ Mk) as (a & b & E & La & _). f_equal.
      assert (b = []). { apply (w_first _ W (d1 ++ a)). rewrite E, <- app_assoc. reflexivity. }
      subst b. rewrite E, !app_length. cbn. lia.
    - exfalso. apply (proj1 (memmem_none _ _) Mk y []). rewrite app_nil_r. exact Ey. }
  rewrite M. replace (0 + (List.length d2 - 4) + REQ_PATSIZE) with (List.length d2) by (unfold REQ_PATSIZE; lia).
  cbn [nth_error]. change (size (b_of B d2)) with (List.length d2). rewrite Nat.ltb_irrefl. reflexivity.
Qed.

Lemma crossing_line : forall B q t u v, let d1 := (q ++ [13%N; 10%N]) ++ t in let d2 := u ++ 13%N :: 10%N :: v in
  whole (d1 ++ d2) -> ~ In 10%N t -> t <> [] -> one_line u -> 2 <= List.length v -> 2 <= List.length q ->
  List.length d1 <= B -> List.length d2 <= B -> B - List.length d1 < B / 4 ->
  (B < List.length u + 2 + List.length t -> serve B (two_reads d1 d2 0) (d1 ++ d2) = Closed) /\
  (List.length u + 2 + List.length t <= B -> List.length t < List.length u + 2 ->
     serve B (two_reads d1 d2 0) (d1 ++ d2) = Undefined) /\
  (List.length t >= List.length u + 2 -> v = [13%N; 10%N] -> serve B (two_reads d1 d2 0) (d1 ++ d2) = Closed).
Proof.
  intros B q t u v d1 d2 W N Ne O Lv Lq L1 L2 Sp.
  assert (N1 : d1 <> []) by (subst d1; destruct q; discriminate).
  assert (N2 : d2 <> []) by (subst d2; destruct u; discriminate).
  unfold two_reads. cbn [repeat]. rewrite step_first by (auto; fold d1; lia). rewrite step_second by auto.
  unfold d1, d2. rewrite fin_cross by auto. unfold dissect. cbn [fixup]. rewrite data_b_of.
  rewrite start_in_cross by auto. rewrite join_cross by auto.
  split; [|split].
  - intro H. replace (B <? List.length u + 2 + List.length t) with true by lia. reflexivity.
  - intros H1 H2. replace (B <? List.length u + 2 + List.length t) with false by lia.
    replace (List.length t <? List.length u + 2) with true by lia. reflexivity.
  - intros H1 H2. subst v. destruct (B <? List.length u + 2 + List.length t); [reflexivity|].
    replace (List.length t <? List.length u + 2) with false by lia. cbn [bind].
    unfold data. cbn [mem start size].
    replace (List.length u + 2) with (List.length (u ++ [13%N; 10%N])) by (rewrite app_length; reflexivity).
    replace (u ++ 13%N :: 10%N :: [13%N; 10%N]) with ((u ++ [13%N; 10%N]) ++ [13%N; 10%N]) by (rewrite <- app_assoc; reflexivity).
    rewrite skipn_exact. reflexivity.
Qed.

(** * NUL *)

Lemma upto_nul_cut : forall a b b', upto_nul (a ++ 0%N :: b) = upto_nul (a ++ 0%N :: b').
Proof.
  induction a as [|x a IH]; intros b b'; cbn [app upto_nul]; auto. destruct (N.eqb x 0); auto. rewrite (IH b b'). reflexivity.
Qed.
Lemma parse_nul : forall a b b', parse_body (a ++ 0%N :: b) = parse_body (a ++ 0%N :: b').
Proof. intros. unfold parse_body. rewrite (upto_nul_cut a b b'). reflexivity. Qed.

(** * Framing *)

Lemma digits_acc : forall l acc x r, Forall (fun d => (48 <= d <= 57)%N) l -> (forall d r', x :: r = d :: r' -> ~ (48 <= d <= 57)%N) ->
  digits (l ++ x :: r) acc = digits l acc.
Proof.
  induction l as [|d l IH]; intros acc x r F N; cbn [app digits].
  - replace ((48 <=? x)%N && (x <=? 57)%N)%bool with false; auto. specialize (N x r eq_refl). lia.
  - inversion F; subst. replace ((48 <=? d)%N && (d <=? 57)%N)%bool with true by lia. apply IH; auto.
Qed.
Lemma digits_snoc : forall l d acc, Forall (fun d => (48 <= d <= 57)%N) l -> (48 <= d <= 57)%N ->
  digits (l ++ [d]) acc = (10 * digits l acc + (Z.of_N d - 48))%Z.
Proof.
  induction l as [|x l IH]; intros d acc F D; cbn [app digits].
  - replace ((48 <=? d)%N && (d <=? 57)%N)%bool with true by lia. lia.
  - inversion F; subst. replace ((48 <=? x)%N && (x <=? 57)%N)%bool with true by lia. apply IH; auto.
Qed.
Lemma decimal_digits : forall l n, decimal l n -> Forall (fun d => (48 <= d <= 57)%N) l /\ l <> [] /\ digits l 0 = n /\ (0 <= n)%Z.
Proof.
  induction 1 as [d D|l n d H (F & Ne & E & P) D].
  - repeat split; [constructor; auto|discriminate| |lia]. cbn [digits].
    replace ((48 <=? d)%N && (d <=? 57)%N)%bool with true by lia. lia.
  - repeat split; [|destruct l; discriminate| |lia].
    + apply Forall_app. split; auto.
    + rewrite digits_snoc by auto. rewrite E. reflexivity.
Qed.
Lemma strtoll_decimal : forall l n, decimal l n -> (n < 2 ^ 63)%Z -> strtoll l = n.
Proof.
  intros l n H L. destruct (decimal_digits _ _ H) as (F & Ne & E & P).
  destruct l as [|d l]; [contradiction|]. inversion F as [|? ? D F']; subst.
  unfold strtoll. cbn [skip_space]. unfold isspace.
  replace (((9 <=? d)%N && (d <=? 13)%N) || (d =? 32)%N)%bool with false by lia.
  assert (X : forall A (a b c : A), match d with 45%N => a | 43%N => b | _ => c end = c).
  { intros. assert (Hd : d = 48%N \/ d = 49%N \/ d = 50%N \/ d = 51%N \/ d = 52%N \/ d = 53%N \/ d = 54%N \/ d = 55%N \/ d = 56%N \/ d = 57%N) by lia.
    decompose [or] Hd; subst; reflexivity. }
  transitivity (clamp (digits (d :: l) 0)).
  - assert (Hd : d = 48%N \/ d = 49%N \/ d = 50%N \/ d = 51%N \/ d = 52%N \/ d = 53%N \/ d = 54%N \/ d = 55%N \/ d = 56%N \/ d = 57%N) by lia.
    clear - Hd. decompose [or] Hd; subst; reflexivity.
  - unfold clamp. lia.
Qed.

(** * Methods and protocols *)

Lemma caseeq_iff : forall a b, caseeq a b = true <-> same_word a b.
Proof.
  intros a b. unfold caseeq, same_word. rewrite beq_eq. split.
  - intro E. exists (map lower a). rewrite !small_map. auto.
  - intros (s & A & B). apply small_map in A. apply small_map in B. congruence.
Qed.
