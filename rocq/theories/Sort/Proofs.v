From Coq Require Import Arith NArith ZArith List Bool Lia ZifyBool ZifyNat ZifyN Permutation.
From Verif.Sort Require Import Model Spec.
Import ListNotations.

Lemma NoDup_app_l {A} (l r : list A) : NoDup (l ++ r) -> NoDup l.
Proof.
  induction l as [|a l IH]; intros H; [constructor|]. inversion H; subst. constructor; [|auto].
  intros Hi. apply H2. apply in_or_app. left; exact Hi.
Qed.

Lemma skipn_skipn {A} (l : list A) : forall m n, skipn n (skipn m l) = skipn (m + n) l.
Proof.
  induction l as [|a l IH]; intros [|m] n; cbn [skipn Nat.add]; try reflexivity; [apply skipn_nil|apply IH].
Qed.

Section P.
Variable compare : nat -> nat -> Z.
Notation before a b := (compare a b < 0)%Z.

(** ** Functional merge *)
Fixpoint fmerge (L : list nat) : list nat -> list nat :=
  fix go (R : list nat) : list nat :=
    match L, R with
    | [], _ => R
    | _, [] => L
    | l :: L', r :: R' => if Z.ltb (compare l r) 0 then l :: fmerge L' R else r :: go R'
    end.

Lemma fmerge_nil_l R : fmerge [] R = R.
Proof. destruct R; reflexivity. Qed.
Lemma fmerge_nil_r L : fmerge L [] = L.
Proof. destruct L; reflexivity. Qed.
Lemma fmerge_cons l L r R :
  fmerge (l :: L) (r :: R) = if Z.ltb (compare l r) 0 then l :: fmerge L (r :: R) else r :: fmerge (l :: L) R.
Proof. reflexivity. Qed.

Lemma fmerge_ind2 (P : list nat -> list nat -> Prop) :
  (forall R, P [] R) -> (forall L, P L []) ->
  (forall l L r R, P L (r :: R) -> P (l :: L) R -> P (l :: L) (r :: R)) -> forall L R, P L R.
Proof.
  intros H1 H2 H3. induction L as [|l L IHL]; intros R; [apply H1|].
  induction R as [|r R IHR]; [apply H2|]. apply H3; auto.
Qed.

Lemma fmerge_perm L R : Permutation (L ++ R) (fmerge L R).
Proof.
  revert L R. apply fmerge_ind2.
  - intros. rewrite fmerge_nil_l. apply Permutation_refl.
  - intros. rewrite fmerge_nil_r, app_nil_r. apply Permutation_refl.
  - intros l L r R H1 H2. rewrite fmerge_cons. destruct (Z.ltb (compare l r) 0).
    + cbn. constructor. exact H1.
    + eapply Permutation_trans; [apply Permutation_sym, Permutation_middle|]. constructor. exact H2.
Qed.

Lemma fmerge_len L R : length (fmerge L R) = length L + length R.
Proof. rewrite <- app_length. symmetry. apply Permutation_length, fmerge_perm. Qed.

Hypothesis W : weak_order compare.

Lemma before_trans_not a b c : ~ before b a -> ~ before c b -> ~ before c a.
Proof. destruct W as [_ T]. intros. eapply T; eassumption. Qed.

Lemma ordered_app_in l a : ordered compare (a :: l) -> forall b, In b l -> ~ before b a.
Proof. intros [H _] b Hb. rewrite Forall_forall in H. auto. Qed.

Lemma fmerge_ordered L R : ordered compare L -> ordered compare R -> ordered compare (fmerge L R).
Proof.
  revert L R. apply (fmerge_ind2 (fun L R => ordered compare L -> ordered compare R -> ordered compare (fmerge L R))).
  - intros. now rewrite fmerge_nil_l.
  - intros. now rewrite fmerge_nil_r.
  - intros l L r R IH1 IH2 [HL OL] [HR OR]. rewrite fmerge_cons.
    destruct (Z.ltb_spec (compare l r) 0) as [B|B].
    + cbn [ordered]. split; [|apply IH1; [exact OL|split; assumption]].
      eapply Permutation_Forall; [apply fmerge_perm|]. apply Forall_app. split; [exact HL|].
      assert (~ before r l) as RL by (apply (proj1 W); exact B).
      constructor; [exact RL|]. rewrite Forall_forall in *. intros b Hb.
      eapply before_trans_not; [exact RL|]. apply HR. exact Hb.
    + cbn [ordered]. split; [|apply IH2; [split; assumption|exact OR]].
      eapply Permutation_Forall; [apply fmerge_perm|]. apply Forall_app. split; [|exact HR].
      constructor; [lia|]. rewrite Forall_forall in *. intros b Hb.
      eapply before_trans_not; [|apply HL; exact Hb]. lia.
Qed.

Lemma tied_no l x r : tied compare x l = true -> before l r -> tied compare x r = false /\ ~ before r x /\ before x r.
Proof.
  unfold tied. intros T B. destruct W as [A Tr].
  assert (~ before x l /\ ~ before l x) as [H1 H2] by lia.
  assert (before x r) as Q. { destruct (Z.ltb_spec (compare x r) 0); [assumption|]. exfalso.
    apply (Tr l x r); [exact H2| |exact B]. lia. }
  pose proof (A x r Q). lia.
Qed.

Lemma filter_none x r R : before x r -> Forall (fun b => ~ before b r) R -> filter (tied compare x) R = [].
Proof.
  intros B. induction 1 as [|b R Hb HR IH]; [reflexivity|]. cbn [filter].
  assert (tied compare x b = false) as ->; [|exact IH].
  unfold tied. destruct (Z.ltb_spec (compare x b) 0); [reflexivity|]. exfalso.
  destruct W as [A T]. apply (T x b r); [lia|exact Hb|exact B].
Qed.

Lemma fmerge_filter x L R : ordered compare L -> ordered compare R ->
  filter (tied compare x) (fmerge L R) = filter (tied compare x) R ++ filter (tied compare x) L.
Proof.
  revert L R. apply (fmerge_ind2 (fun L R => ordered compare L -> ordered compare R -> filter (tied compare x) (fmerge L R) = filter (tied compare x) R ++ filter (tied compare x) L)).
  - intros. now rewrite fmerge_nil_l, app_nil_r.
  - intros. now rewrite fmerge_nil_r.
  - intros l L r R IH1 IH2 [HL OL] [HR OR]. rewrite fmerge_cons.
    destruct (Z.ltb_spec (compare l r) 0) as [B|B].
    + change (filter (tied compare x) (l :: fmerge L (r :: R))) with
        (if tied compare x l then l :: filter (tied compare x) (fmerge L (r :: R)) else filter (tied compare x) (fmerge L (r :: R))).
      rewrite IH1 by (try split; assumption).
      change (filter (tied compare x) (l :: L)) with (if tied compare x l then l :: filter (tied compare x) L else filter (tied compare x) L).
      destruct (tied compare x l) eqn:T; [|reflexivity].
      destruct (tied_no _ _ _ T B) as (T' & _ & XR). cbn [filter]. rewrite T'.
      rewrite (filter_none x r R XR HR). reflexivity.
    + change (filter (tied compare x) (r :: fmerge (l :: L) R)) with
        (if tied compare x r then r :: filter (tied compare x) (fmerge (l :: L) R) else filter (tied compare x) (fmerge (l :: L) R)).
      rewrite IH2 by (try split; assumption).
      change (filter (tied compare x) (r :: R)) with (if tied compare x r then r :: filter (tied compare x) R else filter (tied compare x) R).
      destruct (tied compare x r); reflexivity.
Qed.

(** ** Heap facts *)
Fixpoint lpath (h : heap) (p : option nat) (l : list nat) : Prop :=
  match l with
  | [] => True
  | a :: r => p = Some a /\ lpath h (h a) r
  end.

Definition out (h : heap) (head tail : option nat) (D : list nat) : Prop :=
  (D = [] /\ head = None /\ tail = None) \/
  (exists D0 t, D = D0 ++ [t] /\ tail = Some t /\ lpath h head D).

Lemma lpath_ext h h' l : (forall a, In a l -> h' a = h a) -> forall p, lpath h p l -> lpath h' p l.
Proof.
  induction l as [|a l IH]; intros E p H; [exact I|]. destruct H as [-> H]. split; [reflexivity|].
  rewrite E by (left; reflexivity). apply IH; [|exact H]. intros b Hb. apply E. right; exact Hb.
Qed.

Lemma chain_ext h h' l : (forall a, In a l -> h' a = h a) -> forall p, chain h p l -> chain h' p l.
Proof.
  induction l as [|a l IH]; intros E p H; [exact H|]. destruct H as [-> H]. split; [reflexivity|].
  rewrite E by (left; reflexivity). apply IH; [|exact H]. intros b Hb. apply E. right; exact Hb.
Qed.

Lemma chain_lpath h l r : forall p, chain h p (l ++ r) -> lpath h p l.
Proof. induction l as [|a l IH]; intros p H; [exact I|]. destruct H as [-> H]. split; auto. Qed.

Lemma lpath_snoc h D0 t x : forall p, NoDup (D0 ++ [t]) -> lpath h p (D0 ++ [t]) ->
  lpath (set_next h t (Some x)) p ((D0 ++ [t]) ++ [x]).
Proof.
  induction D0 as [|a D0 IH]; intros p ND H.
  - destruct H as [-> _]. cbn. unfold set_next. rewrite Nat.eqb_refl. auto.
  - destruct H as [-> H]. inversion ND; subst. split; [reflexivity|].
    unfold set_next at 2. destruct (Nat.eqb_spec a t) as [->|].
    + exfalso. apply H2. apply in_or_app. right. left. reflexivity.
    + apply IH; assumption.
Qed.

Lemma emit_ok h head tail D x h' hd tl : out h head tail D -> NoDup D -> emit h head tail x = (h', hd, tl) ->
  out h' hd tl (D ++ [x]) /\ (forall a, ~ In a D -> h' a = h a).
Proof.
  intros [(-> & -> & ->)|(D0 & t & -> & -> & P)] ND E; cbn in E; injection E as <- <- <-.
  - split; [|reflexivity]. right. exists [], x. cbn. auto.
  - split.
    + right. exists (D0 ++ [t]), x. repeat split. apply lpath_snoc; assumption.
    + intros a Ha. unfold set_next. destruct (Nat.eqb_spec a t) as [->|]; [|reflexivity].
      exfalso. apply Ha. apply in_or_app. right; left; reflexivity.
Qed.

Lemma count_left_ok h k : forall fuel l p n, chain h p l -> length l < fuel ->
  n <= k ->
  exists q, count_left fuel h k p n = Some (q, n + Nat.min (length l) (k - n)) /\ chain h q (skipn (k - n) l).
Proof.
  induction fuel as [|f IH]; intros l p n C F N; [lia|]. cbn [count_left].
  destruct l as [|a l].
  - cbn in C. subst p. exists None. cbn [length Nat.min]. rewrite Nat.add_0_r, skipn_nil. split; reflexivity.
  - destruct C as [-> C]. destruct (Nat.ltb_spec n k) as [L|L].
    + destruct (IH l (h a) (S n) C) as (q & E & Q); [cbn in F; lia|lia|].
      exists q. replace (k - n) with (S (k - S n)) by lia. cbn [skipn length].
      split; [|exact Q]. rewrite E. do 2 f_equal. lia.
    + exists (Some a). replace (k - n) with 0 by lia. cbn [skipn]. rewrite Nat.min_0_r, Nat.add_0_r.
      split; [reflexivity|]. cbn. auto.
Qed.

Lemma merge_loop_ok : forall fuel h left right rs head tail L R1 R2 D,
  length L + length R1 < fuel ->
  lpath h left L -> chain h right (R1 ++ R2) -> out h head tail D -> NoDup (D ++ L ++ R1 ++ R2) ->
  length R1 <= rs -> (R2 = [] \/ length R1 = rs) ->
  exists h' hd tl right', merge_loop compare fuel h left (length L) right rs head tail = Some (Some (h', hd, tl, right')) /\
    chain h' right' R2 /\ out h' hd tl (D ++ fmerge L R1) /\
    (forall a, ~ In a (D ++ L ++ R1) -> h' a = h a).
Proof.
  induction fuel as [|f IH]; intros h left right rs head tail L R1 R2 D F PL CR O ND RS RS2; [lia|].
  assert (NoDup D) as NDD by (apply NoDup_app_l in ND; exact ND).
  (* the two ways to advance *)
  assert (forall r R1', R1 = r :: R1' -> fmerge L R1 = r :: fmerge L R1' ->
     exists h' hd tl right', match right with
        | None => Some None
        | Some r => let '(h', hd, tl) := emit h head tail r in
                    merge_loop compare f h' left (length L) (h r) (Nat.pred rs) hd tl
        end = Some (Some (h', hd, tl, right')) /\
    chain h' right' R2 /\ out h' hd tl (D ++ fmerge L R1) /\
    (forall a, ~ In a (D ++ L ++ R1) -> h' a = h a)) as TR.
  { intros r R1' -> EM. cbn [app] in CR. destruct CR as [-> CR].
    destruct (emit h head tail r) as [[h1 hd1] tl1] eqn:E.
    destruct (emit_ok _ _ _ _ _ _ _ _ O NDD E) as [O1 FR].
    assert (forall a, In a (L ++ R1' ++ R2) -> ~ In a D) as NI.
    { intros a Ha HD. apply in_split in HD as (D1 & D2 & ->).
      rewrite <- app_assoc in ND. cbn in ND. apply NoDup_remove_2 in ND. apply ND.
      apply in_or_app. right. apply in_or_app. right.
      apply in_app_or in Ha as [Ha|Ha]; apply in_or_app; [left; exact Ha|right; right; exact Ha]. }
    destruct (IH h1 left (h r) (Nat.pred rs) hd1 tl1 L R1' R2 (D ++ [r])) as (h' & hd & tl & right' & EQ & C' & O' & F').
    - cbn in F. lia.
    - apply (lpath_ext h); [|exact PL]. intros a Ha. apply FR, NI. apply in_or_app. left; exact Ha.
    - apply (chain_ext h); [|exact CR]. intros a Ha. apply FR, NI. apply in_or_app. right; exact Ha.
    - exact O1.
    - eapply Permutation_NoDup; [|exact ND]. rewrite <- app_assoc. apply Permutation_app_head.
      cbn. apply Permutation_sym. apply (Permutation_middle L (R1' ++ R2) r).
    - cbn in RS. lia.
    - destruct RS2 as [?|RS2]; [left; assumption|right; cbn in RS2; lia].
    - exists h', hd, tl, right'. split; [exact EQ|]. split; [exact C'|]. rewrite EM. rewrite <- app_assoc in O'.
      split; [exact O'|]. intros a Ha. rewrite F', FR; [reflexivity| |].
      + intros Q; apply Ha; apply in_or_app; left; exact Q.
      + intros Q. apply Ha. repeat (apply in_app_or in Q as [Q|Q]).
        * apply in_or_app; left; exact Q.
        * destruct Q as [<-|[]]. apply in_or_app; right. apply in_or_app; right; left; reflexivity.
        * apply in_or_app; right; apply in_or_app; left; exact Q.
        * apply in_or_app; right; apply in_or_app; right; right; exact Q. }
  assert (forall l L', L = l :: L' -> fmerge L R1 = l :: fmerge L' R1 ->
     exists h' hd tl right', match left with
        | None => Some None
        | Some l => let '(h', hd, tl) := emit h head tail l in
                    merge_loop compare f h' (h l) (Nat.pred (length L)) right rs hd tl
        end = Some (Some (h', hd, tl, right')) /\
    chain h' right' R2 /\ out h' hd tl (D ++ fmerge L R1) /\
    (forall a, ~ In a (D ++ L ++ R1) -> h' a = h a)) as TL.
  { intros l L' -> EM. destruct PL as [-> PL].
    destruct (emit h head tail l) as [[h1 hd1] tl1] eqn:E.
    destruct (emit_ok _ _ _ _ _ _ _ _ O NDD E) as [O1 FR].
    assert (forall a, In a (L' ++ R1 ++ R2) -> ~ In a D) as NI.
    { intros a Ha HD. apply in_split in HD as (D1 & D2 & ->).
      rewrite <- app_assoc in ND. cbn in ND. apply NoDup_remove_2 in ND. apply ND.
      apply in_or_app. right. apply in_or_app. right. right. exact Ha. }
    destruct (IH h1 (h l) right rs hd1 tl1 L' R1 R2 (D ++ [l])) as (h' & hd & tl & right' & EQ & C' & O' & F').
    - cbn in F. lia.
    - apply (lpath_ext h); [|exact PL]. intros a Ha. apply FR, NI. apply in_or_app. left; exact Ha.
    - apply (chain_ext h); [|exact CR]. intros a Ha. apply FR, NI. apply in_or_app. right; exact Ha.
    - exact O1.
    - rewrite <- app_assoc. exact ND.
    - exact RS.
    - exact RS2.
    - exists h', hd, tl, right'. cbn [length Nat.pred]. split; [exact EQ|]. split; [exact C'|]. rewrite EM. rewrite <- app_assoc in O'.
      split; [exact O'|]. intros a Ha. rewrite F', FR; [reflexivity| |].
      + intros Q; apply Ha; apply in_or_app; left; exact Q.
      + rewrite <- app_assoc. exact Ha. }
  cbn [merge_loop].
  destruct L as [|l L'].
  - change (Nat.ltb 0 (length (@nil nat))) with false. cbn [orb length Nat.eqb]. destruct R1 as [|r R1'].
    + match goal with |- context [if ?c then _ else _] => assert (c = false) as -> end.
      { destruct RS2 as [->|RS2]; [cbn in CR; subst right; apply andb_false_r|].
        cbn in RS2. subst rs. reflexivity. }
      exists h, head, tail, right. split; [reflexivity|]. split; [exact CR|]. split; [|reflexivity].
      cbn [fmerge]. rewrite app_nil_r. exact O.
    + assert (right = Some r) as -> by (destruct CR; assumption).
      assert (Nat.ltb 0 rs = true) as -> by (cbn in RS; lia). cbn [andb].
      apply (TR r R1' eq_refl). rewrite !fmerge_nil_l. reflexivity.
  - cbn [length Nat.eqb]. change (Nat.ltb 0 (S (length L'))) with true. cbn [orb].
    destruct R1 as [|r R1'].
    + match goal with |- context [if ?c then _ else _] => assert (c = true) as -> end.
      { destruct RS2 as [->|RS2]; [cbn in CR; subst right; apply orb_true_r|].
        cbn in RS2. subst rs. reflexivity. }
      apply (TL l L' eq_refl). rewrite !fmerge_nil_r. reflexivity.
    + assert (right = Some r) as ER by (destruct CR; assumption).
      assert (left = Some l) as EL by (destruct PL; assumption).
      assert (Nat.eqb rs 0 = false) as -> by (cbn in RS; lia). rewrite ER, EL in *. cbn [orb].
      destruct (Z.ltb (compare l r) 0) eqn:CMP.
      * apply (TL l L' eq_refl). rewrite fmerge_cons, CMP. reflexivity.
      * apply (TR r R1' eq_refl). rewrite fmerge_cons, CMP. reflexivity.
Qed.

(** ** One pass *)
Inductive Pass (k : nat) : list nat -> list nat -> nat -> Prop :=
| P_nil : Pass k [] [] 0
| P_cons L R T T' m : 0 < length L -> length L <= k -> (length L = k \/ R ++ T = []) ->
    length R <= k -> (length R = k \/ T = []) -> Pass k T T' m ->
    Pass k (L ++ R ++ T) (fmerge L R ++ T') (S m).

Lemma pass_perm k l l' m : Pass k l l' m -> Permutation l l'.
Proof.
  induction 1 as [|L R T T' m H1 H2 H3 H4 H5 HP IH]; [constructor|].
  rewrite app_assoc. apply Permutation_app; [apply fmerge_perm|exact IH].
Qed.

Lemma firstn_app_len {A} (l r : list A) n : n = length l -> firstn n (l ++ r) = l.
Proof. intros ->. rewrite firstn_app, Nat.sub_diag, firstn_all. cbn. apply app_nil_r. Qed.
Lemma skipn_app_len {A} (l r : list A) n : n = length l -> skipn n (l ++ r) = r.
Proof. intros ->. rewrite skipn_app, Nat.sub_diag, skipn_all. reflexivity. Qed.

Lemma pass_loop_ok k : 0 < k -> forall fuel h p l D head tail m0,
  length l < fuel -> chain h p l -> out h head tail D -> NoDup (D ++ l) ->
  exists h' hd tl l' m, pass_loop compare fuel h k p head tail m0 = Some (Some (h', hd, tl, m0 + m)) /\
    out h' hd tl (D ++ l') /\ Pass k l l' m /\ (forall a, ~ In a (D ++ l) -> h' a = h a).
Proof.
  intros K. induction fuel as [|f IH]; intros h p l D head tail m0 F C O ND; [lia|].
  destruct l as [|a l0].
  - cbn in C. subst p. exists h, head, tail, [], 0. cbn [pass_loop]. rewrite Nat.add_0_r, app_nil_r.
    split; [reflexivity|]. split; [exact O|]. split; [apply P_nil|reflexivity].
  - remember (a :: l0) as l eqn:EL.
    assert (p = Some a) as EP by (subst l; destruct C; assumption).
    cbn [pass_loop]. destruct p as [pa|]; [|discriminate]. cbn iota.
    set (p := Some pa) in *. destruct (count_left_ok h k (S f) l p 0 C F) as (q & E & Q); [lia|].
    rewrite E. rewrite Nat.sub_0_r in *. cbn [Nat.add].
    set (L := firstn k l) in *. set (S0 := skipn k l) in *.
    set (R := firstn k S0) in *. set (T := skipn k S0) in *.
    assert (l = L ++ R ++ T) as EQL by (subst L R T S0; now rewrite !firstn_skipn).
    assert (length L = Nat.min (length l) k) as LL by (subst L; rewrite firstn_length; lia).
    assert (length S0 = length l - k) as LS by (subst S0; apply skipn_length).
    assert (length R = Nat.min k (length S0)) as LR by (subst R; apply firstn_length).
    assert (length T = length S0 - k) as LT by (subst T; apply skipn_length).
    assert (0 < length l) by (subst l; cbn; lia).
    rewrite <- LL.
    destruct (merge_loop_ok (S f) h p q k head tail L R T D) as (h1 & hd1 & tl1 & q1 & EM & C1 & O1 & F1).
    + lia.
    + apply (chain_lpath h L (R ++ T)). rewrite <- EQL. exact C.
    + subst R T. rewrite firstn_skipn. exact Q.
    + exact O.
    + rewrite <- EQL. exact ND.
    + lia.
    + destruct (Nat.eq_dec (length R) k); [right; assumption|left].
      apply length_zero_iff_nil. lia.
    + rewrite EM.
      assert (Permutation (D ++ l) ((D ++ fmerge L R) ++ T)) as PP.
      { rewrite EQL, <- app_assoc. apply Permutation_app_head. rewrite app_assoc.
        apply Permutation_app_tail. apply fmerge_perm. }
      destruct (IH h1 q1 T (D ++ fmerge L R) hd1 tl1 (S m0)) as (h' & hd & tl & T' & m & EP' & O' & PS & F').
      * lia.
      * exact C1.
      * exact O1.
      * eapply Permutation_NoDup; [exact PP|exact ND].
      * exists h', hd, tl, (fmerge L R ++ T'), (S m). rewrite EP'.
        split; [do 2 f_equal; f_equal; lia|]. split; [rewrite app_assoc; exact O'|]. split.
        -- rewrite EQL. apply P_cons; [lia|lia| |lia| |exact PS].
           ++ destruct (Nat.eq_dec (length L) k); [left; assumption|right].
              apply length_zero_iff_nil. rewrite app_length. lia.
           ++ destruct (Nat.eq_dec (length R) k); [left; assumption|right].
              apply length_zero_iff_nil. lia.
        -- intros b Hb. rewrite F', F1; [reflexivity| |].
           ++ intros Hi. apply Hb. rewrite EQL. apply in_app_or in Hi as [Hi|Hi]; apply in_or_app; [left; exact Hi|right].
              rewrite app_assoc. apply in_or_app. left; exact Hi.
           ++ intros Hi. apply Hb. eapply Permutation_in; [apply Permutation_sym, PP|exact Hi].
Qed.

(** ** The invariant between passes *)
Definition block (k i : nat) (l : list nat) : list nat := firstn k (skipn (i * k) l).

Definition rev_stable (o c : list nat) : Prop :=
  ordered compare c /\ Permutation o c /\ forall x, filter (tied compare x) c = rev (filter (tied compare x) o).

Definition Inv (k : nat) (o l : list nat) : Prop :=
  length l = length o /\ forall i, rev_stable (block k i o) (block k i l).

Lemma rs_nil : rev_stable [] [].
Proof. split; [exact I|]. split; [constructor|reflexivity]. Qed.

Lemma rs_merge o1 c1 o2 c2 : rev_stable o1 c1 -> rev_stable o2 c2 -> rev_stable (o1 ++ o2) (fmerge c1 c2).
Proof.
  intros (A1 & A2 & A3) (B1 & B2 & B3). split; [apply fmerge_ordered; assumption|]. split.
  - eapply Permutation_trans; [|apply fmerge_perm]. apply Permutation_app; assumption.
  - intros x. rewrite fmerge_filter by assumption. rewrite filter_app, rev_app_distr, A3, B3. reflexivity.
Qed.

Lemma block_cons k i l : block k (S i) l = block k i (skipn k l).
Proof. unfold block. rewrite skipn_skipn. do 2 f_equal. Qed.

Lemma block_all k l : length l <= k -> block k 0 l = l.
Proof. intros H. unfold block. cbn. apply firstn_all2. exact H. Qed.

Lemma block2 k l : block (2 * k) 0 l = block k 0 l ++ block k 1 l.
Proof.
  unfold block. cbn [Nat.mul skipn]. rewrite !Nat.add_0_r.
  rewrite <- (firstn_skipn k l) at 1. rewrite firstn_app, firstn_firstn, firstn_length.
  replace (Nat.min (k + k) k) with k by lia.
  destruct (Nat.le_gt_cases (length l) k).
  - rewrite (skipn_all2 l) by assumption. now rewrite !firstn_nil.
  - do 2 f_equal. lia.
Qed.

Lemma pass_inv k : 0 < k -> forall l l' m, Pass k l l' m -> forall o, Inv k o l -> Inv (2 * k) o l'.
Proof.
  intros K l l' m P. induction P as [|L R T T' m H1 H2 H3 H4 H5 HP IH]; intros o [LN I].
  - destruct o; [|discriminate]. split; [reflexivity|]. intros i. unfold block.
    rewrite skipn_nil, firstn_nil. apply rs_nil.
  - assert (block k 0 (L ++ R ++ T) = L) as B0.
    { unfold block. cbn [Nat.mul skipn]. destruct H3 as [E|E].
      - apply firstn_app_len. auto.
      - rewrite E, app_nil_r. apply firstn_all2. exact H2. }
    assert (skipn k (L ++ R ++ T) = R ++ T) as SK.
    { destruct H3 as [E|E].
      - apply skipn_app_len. auto.
      - rewrite E, app_nil_r. apply skipn_all2. exact H2. }
    assert (firstn k (R ++ T) = R) as B1.
    { destruct H5 as [E|E].
      - apply firstn_app_len. auto.
      - rewrite E, app_nil_r. apply firstn_all2. exact H4. }
    assert (skipn k (R ++ T) = T) as SK2.
    { destruct H5 as [E|E].
      - apply skipn_app_len. auto.
      - rewrite E, app_nil_r. apply skipn_all2. exact H4. }
    assert (Inv k (skipn (2 * k) o) T) as IT.
    { split.
      - rewrite skipn_length, <- LN, !app_length. destruct H5 as [E|E].
        + destruct H3 as [E'|E']; [lia|]. apply app_eq_nil in E' as [-> ->]. cbn in *. lia.
        + subst T. cbn. lia.
      - intros i. specialize (I (S (S i))). rewrite !block_cons, SK, SK2 in I.
        rewrite skipn_skipn in I. replace (2 * k) with (k + k) by lia. exact I. }
    specialize (IH _ IT). destruct IH as [LN' I'].
    pose proof (pass_perm _ _ _ _ HP) as PT. apply Permutation_length in PT.
    split.
    { rewrite app_length, fmerge_len. rewrite !app_length in LN. lia. }
    assert (T' = [] \/ length (fmerge L R) = 2 * k) as LM.
    { rewrite fmerge_len. destruct H5 as [E|E].
      - destruct H3 as [E'|E']; [right; lia|]. apply app_eq_nil in E' as [-> ->]. left. destruct T'; [reflexivity|discriminate].
      - subst T. left. destruct T'; [reflexivity|discriminate]. }
    intros [|i].
    + rewrite block2.
      assert (block (2 * k) 0 (fmerge L R ++ T') = fmerge L R) as ->.
      { unfold block. cbn [Nat.mul skipn]. destruct LM as [->|E].
        - rewrite app_nil_r. apply firstn_all2. rewrite fmerge_len. lia.
        - apply firstn_app_len. rewrite E. lia. }
      apply rs_merge.
      * specialize (I 0). rewrite B0 in I. exact I.
      * specialize (I 1). rewrite !block_cons in *. rewrite SK in I. unfold block at 2 in I.
        cbn [Nat.mul skipn] in I. rewrite B1 in I. exact I.
    + rewrite !block_cons.
      assert (skipn (2 * k) (fmerge L R ++ T') = T') as ->; [|apply I'].
      destruct LM as [->|E].
      * rewrite app_nil_r. apply skipn_all2. rewrite fmerge_len. lia.
      * apply skipn_app_len. lia.
Qed.

Lemma pass_one k l l' m : Pass k l l' m -> m <= 1 -> length l' <= 2 * k.
Proof.
  intros P. inversion P as [|L R T T' m' H1 H2 H3 H4 H5 HP]; subst; intros M; [cbn; lia|].
  inversion HP; subst; [|lia]. rewrite app_nil_r, fmerge_len. lia.
Qed.

Lemma pass_many k l l' m : Pass k l l' m -> 1 < m -> 2 * k < length l.
Proof.
  intros P. inversion P as [|L R T T' m' H1 H2 H3 H4 H5 HP]; subst; intros M; [lia|].
  inversion HP; subst; [lia|]. rewrite !app_length.
  destruct H5 as [E|E]; [|apply (f_equal (@length nat)) in E; rewrite !app_length in E; cbn in E; lia].
  destruct H3 as [E'|E']; [lia|]. apply (f_equal (@length nat)) in E'; rewrite !app_length in E'; cbn in E'; lia.
Qed.

Lemma lpath_chain_end h D0 t : NoDup (D0 ++ [t]) -> forall p, lpath h p (D0 ++ [t]) ->
  chain (set_next h t None) p (D0 ++ [t]).
Proof.
  induction D0 as [|a D0 IH]; intros ND p H.
  - destruct H as [-> _]. cbn. unfold set_next. rewrite Nat.eqb_refl. auto.
  - destruct H as [-> H]. inversion ND; subst. split; [reflexivity|].
    unfold set_next at 2. destruct (Nat.eqb_spec a t) as [->|].
    + exfalso. apply H2. apply in_or_app. right. left. reflexivity.
    + apply IH; assumption.
Qed.

Lemma sort_loop_ok (o : list nat) : (N.of_nat (length o) <= 2 ^ 30)%N -> NoDup o -> o <> [] ->
  forall fuel k h p l, 0 < k -> length o + (length o - k) < fuel -> (k = 1 \/ k < length o) ->
  chain h p l -> Permutation o l -> Inv k o l ->
  exists h' p' l', sort_loop compare fuel h k p = Done h' p' /\ chain h' p' l' /\ rev_stable o l' /\
    (forall a, ~ In a o -> h' a = h a).
Proof.
  intros BIG ND NE fuel. induction fuel as [|f IH]; intros k h p l K F KO C PM IV; [lia|].
  destruct (pass_loop_ok k K (S f) h p l [] None None 0) as (h1 & hd & tl & l' & m & E & O & PS & FR0).
  { rewrite <- (Permutation_length PM). lia. }
  { exact C. }
  { left. auto. }
  { eapply Permutation_NoDup; [exact PM|exact ND]. }
  assert (forall a, ~ In a o -> h1 a = h a) as FR.
  { intros a Ha. apply FR0. intros Hb. apply Ha. eapply Permutation_in; [apply Permutation_sym, PM|exact Hb]. }
  cbn [app] in O. cbn [sort_loop]. rewrite E. cbn [Nat.add].
  pose proof (pass_perm _ _ _ _ PS) as P1.
  assert (Permutation o l') as PO by (eapply Permutation_trans; eassumption).
  destruct O as [(-> & _)|(D0 & t & -> & -> & LP)].
  { apply Permutation_sym, Permutation_nil in PO. contradiction. }
  assert (In t o) as To.
  { eapply Permutation_in; [apply Permutation_sym, PO|]. apply in_or_app. right; left; reflexivity. }
  assert (NoDup (D0 ++ [t])) as ND' by (exact (Permutation_NoDup PO ND)).
  assert (forall a, ~ In a o -> set_next h1 t None a = h a) as FR2.
  { intros a Ha. unfold set_next. destruct (Nat.eqb_spec a t) as [->|]; [contradiction|]. apply FR; exact Ha. }
  assert (0 < length o) by (destruct o; [contradiction|cbn; lia]).
  assert ((2 ^ 31 <=? 2 * N.of_nat k)%N = false) as ->.
  { apply N.leb_gt. change (2 ^ 31)%N with (2 * 2 ^ 30)%N.
    destruct KO as [->|KO]; [reflexivity|]. lia. }
  pose proof (pass_inv k K _ _ _ PS _ IV) as IV'.
  pose proof (lpath_chain_end h1 D0 t ND' hd LP) as CH.
  destruct (Nat.ltb_spec 1 m) as [M|M].
  - pose proof (pass_many _ _ _ _ PS M) as LK. rewrite <- (Permutation_length PM) in LK.
    destruct (IH (2 * k) (set_next h1 t None) hd (D0 ++ [t])) as (h' & p' & l'' & E' & C' & RS & FR').
    + lia.
    + lia.
    + right. exact LK.
    + exact CH.
    + exact PO.
    + exact IV'.
    + exists h', p', l''. split; [exact E'|]. split; [exact C'|]. split; [exact RS|].
      intros a Ha. rewrite FR' by exact Ha. apply FR2; exact Ha.
  - pose proof (pass_one _ _ _ _ PS M) as LK.
    exists (set_next h1 t None), hd, (D0 ++ [t]). split; [reflexivity|]. split; [exact CH|]. split; [|exact FR2].
    destruct IV' as [LN I]. specialize (I 0). rewrite !block_all in I; [exact I|exact LK|rewrite <- LN; exact LK].
Qed.

Lemma inv_init l : Inv 1 l l.
Proof.
  split; [reflexivity|]. intros i. unfold block. destruct (skipn (i * 1) l) as [|a r]; cbn [firstn]; [apply rs_nil|].
  split; [cbn; auto|]. split; [apply Permutation_refl|]. intros x. cbn. destruct (tied compare x a); reflexivity.
Qed.

Lemma merge_sort_ok h p l fuel : chain h p l -> NoDup l -> (N.of_nat (length l) <= 2 ^ 30)%N -> 2 * length l < fuel ->
  exists h' p' l', merge_sort compare fuel h p = Done h' p' /\ chain h' p' l' /\ rev_stable l l' /\
    (forall a, ~ In a l -> h' a = h a).
Proof.
  intros C ND B F. unfold merge_sort. destruct p as [a|].
  - destruct l as [|a' l]; [discriminate|]. destruct C as [E C]. injection E as <-.
    destruct (h a) as [b|] eqn:Ha.
    + apply (sort_loop_ok (a :: l) B ND) with (l := a :: l); try lia.
      * discriminate.
      * cbn. rewrite Ha. auto.
      * apply Permutation_refl.
      * apply inv_init.
    + destruct l; [|destruct C; discriminate].
      exists h, (Some a), [a]. split; [reflexivity|]. split; [cbn; auto|]. split; [|reflexivity].
      destruct (inv_init [a]) as [_ I]. specialize (I 0). exact I.
  - destruct l; [|destruct C; discriminate].
    exists h, None, []. split; [reflexivity|]. split; [reflexivity|]. split; [apply rs_nil|reflexivity].
Qed.
End P.

(** ** Determinacy of the nodes reached *)
Lemma chain_fun h l : forall p l', chain h p l -> chain h p l' -> l = l'.
Proof.
  induction l as [|a l IH]; intros p [|b l'] H H'; cbn in *; [reflexivity| | |].
  - destruct H'. congruence.
  - destruct H. congruence.
  - destruct H as [-> H]. destruct H' as [E H']. injection E as <-. f_equal. eapply IH; eassumption.
Qed.

Lemma ties_reversed compare : weak_order compare ->
  forall h p l fuel h' p' l', chain h p l -> NoDup l -> (N.of_nat (length l) <= 2 ^ 30)%N -> 2 * length l < fuel ->
  merge_sort compare fuel h p = Done h' p' -> chain h' p' l' ->
  forall x, filter (tied compare x) l' = rev (filter (tied compare x) l).
Proof.
  intros W h p l fuel h' p' l' C ND B F E C' x.
  destruct (merge_sort_ok compare W h p l fuel C ND B F) as (h1 & p1 & l1 & E1 & C1 & (_ & _ & R) & _).
  rewrite E in E1. injection E1 as <- <-. rewrite (chain_fun _ _ _ _ C' C1). apply R.
Qed.

Lemma rev_self_nodup (l : list nat) : NoDup l -> rev l = l -> length l <= 1.
Proof.
  intros ND E. destruct l as [|a [|b l]]; cbn [length]; [lia|lia|]. exfalso.
  destruct (exists_last (l := b :: l)) as (l0 & c & El); [discriminate|].
  rewrite El in E, ND. change (rev (a :: l0 ++ [c])) with (rev (l0 ++ [c]) ++ [a]) in E.
  rewrite rev_app_distr in E. cbn in E. injection E as -> _. inversion ND; subst. apply H1.
  apply in_or_app. right. left. reflexivity.
Qed.

Lemma tied_refl compare x : weak_order compare -> tied compare x x = true.
Proof. intros [A _]. unfold tied. specialize (A x x). lia. Qed.

Lemma stable_iff_no_ties compare : weak_order compare ->
  forall h p l fuel h' p' l', chain h p l -> NoDup l -> (N.of_nat (length l) <= 2 ^ 30)%N -> 2 * length l < fuel ->
  merge_sort compare fuel h p = Done h' p' -> chain h' p' l' ->
  ((forall x, filter (tied compare x) l' = filter (tied compare x) l) <->
   (forall a b, In a l -> In b l -> tied compare a b = true -> a = b)).
Proof.
  intros W h p l fuel h' p' l' C ND B F E C'.
  pose proof (ties_reversed compare W h p l fuel h' p' l' C ND B F E C') as R. split.
  - intros S a b Ha Hb T. specialize (S a). rewrite R in S.
    apply rev_self_nodup in S; [|apply NoDup_filter; exact ND].
    assert (In a (filter (tied compare a) l)) as IA by (apply filter_In; split; [exact Ha|apply tied_refl; exact W]).
    assert (In b (filter (tied compare a) l)) as IB by (apply filter_In; split; assumption).
    destruct (filter (tied compare a) l) as [|x [|y q]]; [destruct IA| |cbn in S; lia].
    destruct IA as [<-|[]]. destruct IB as [<-|[]]. reflexivity.
  - intros U x. rewrite R. 
    assert (forall a b, In a (filter (tied compare x) l) -> In b (filter (tied compare x) l) -> a = b) as Q.
    { intros a b Ia Ib. apply filter_In in Ia as [Ia Ta]. apply filter_In in Ib as [Ib Tb].
      apply U; [exact Ia|exact Ib|]. unfold tied in *. destruct W as [A T].
      assert (~ (compare a x < 0)%Z /\ ~ (compare x b < 0)%Z /\ ~ (compare b x < 0)%Z /\ ~ (compare x a < 0)%Z) as (q1 & q2 & q3 & q4) by lia.
      pose proof (T a x b q1 q2). pose proof (T b x a q3 q4). lia. }
    pose proof (NoDup_filter (tied compare x) ND) as NF.
    destruct (filter (tied compare x) l) as [|a [|b q]]; [reflexivity|reflexivity|].
    exfalso. inversion NF; subst. apply H1. left. apply Q; [right; left; reflexivity|left; reflexivity].
Qed.

Lemma sorted_permutation compare : weak_order compare ->
  forall h p l fuel, chain h p l -> NoDup l -> (N.of_nat (length l) <= 2 ^ 30)%N -> 2 * length l < fuel ->
  exists h' p' l', merge_sort compare fuel h p = Done h' p' /\ chain h' p' l' /\
    Permutation l l' /\ ordered compare l' /\ (forall a, ~ In a l -> h' a = h a).
Proof.
  intros W h p l fuel C ND B F.
  destruct (merge_sort_ok compare W h p l fuel C ND B F) as (h1 & p1 & l1 & E1 & C1 & (HO & HP & _) & FR).
  exists h1, p1, l1. auto.
Qed.
