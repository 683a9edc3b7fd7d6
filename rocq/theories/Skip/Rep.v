(** How heap cells represent columns of nodes, and how pointer updates act on that. *)
From Coq Require Import Arith NArith ZArith List Bool Lia.
From Verif.Skip Require Import Model.
Import ListNotations.

(** a column: its data and its nodes, bottom first *)
Definition col := (N * list nat)%type.
Definition nthrow (i : nat) (c : col) : list nat := match nth_error (snd c) i with Some a => [a] | None => [] end.
Definition row (i : nat) (cs : list col) : list nat := flat_map (nthrow i) cs.
Definition addrs (cs : list col) : list nat := flat_map snd cs.
Definition hp (h : nat -> option node) (a : nat) : option (option nat * option nat) := option_map (fun n => (next n, prev n)) (h a).
Definition vp (h : nat -> option node) (a : nat) : option (N * option nat * option nat) :=
  option_map (fun n => (data n, up n, down n)) (h a).
Definition last_ {A} (l : list A) : option A := hd_error (rev l).
Definition below (l : list nat) (i : nat) : option nat := match i with O => None | S j => nth_error l j end.

Definition linked (h : nat -> option node) (r : list nat) : Prop :=
  forall r1 a r2, r = r1 ++ a :: r2 -> hp h a = Some (hd_error r2, last_ r1).
Definition upright (h : nat -> option node) (c : col) : Prop :=
  forall i a, nth_error (snd c) i = Some a -> vp h a = Some (fst c, nth_error (snd c) (S i), below (snd c) i).

Record Rep (h : nat -> option node) (fr : nat) (cs : list col) : Prop := {
  r_h : forall i, linked h (row i cs);
  r_v : forall c, In c cs -> upright h c;
  r_dom : forall a, h a <> None <-> In a (addrs cs);
  r_nd : NoDup (addrs cs);
  r_fr : forall a, In a (addrs cs) -> a < fr
}.

(** lists *)
Lemma row_app : forall i A B, row i (A ++ B) = row i A ++ row i B.
Proof. intros. unfold row. apply flat_map_app. Qed.
Lemma addrs_app : forall A B, addrs (A ++ B) = addrs A ++ addrs B.
Proof. intros. unfold addrs. apply flat_map_app. Qed.
Lemma last_app : forall A (l : list A) x, last_ (l ++ [x]) = Some x.
Proof. intros. unfold last_. rewrite rev_app_distr. reflexivity. Qed.
Lemma last_app_r : forall A (l r : list A), r <> [] -> last_ (l ++ r) = last_ r.
Proof.
  intros A l r H. unfold last_. rewrite rev_app_distr. destruct (rev r) eqn:E; [|reflexivity].
  exfalso. apply H. rewrite <- (rev_involutive r), E. reflexivity.
Qed.
Lemma last_in : forall A (l : list A) x, last_ l = Some x -> exists l', l = l' ++ [x].
Proof.
  intros A l x H. unfold last_ in H. destruct (rev l) eqn:E; [discriminate|]. injection H as ->. exists (rev l0).
  rewrite <- (rev_involutive l), E. reflexivity.
Qed.
Lemma hd_in : forall A (l : list A) x, hd_error l = Some x -> exists l', l = x :: l'.
Proof. intros A [|y l] x H; [discriminate|]. injection H as ->. eauto. Qed.
Lemma in_row : forall i cs a, In a (row i cs) <-> exists c, In c cs /\ nth_error (snd c) i = Some a.
Proof.
  intros. unfold row. rewrite in_flat_map. split; intros (c & H1 & H2); exists c; split; auto; unfold nthrow in *.
  - destruct (nth_error (snd c) i); [destruct H2 as [->|[]]; reflexivity|contradiction].
  - rewrite H2. left. reflexivity.
Qed.
Lemma row_addrs : forall i cs a, In a (row i cs) -> In a (addrs cs).
Proof. intros i cs a H. apply in_row in H as (c & H1 & H2). apply in_flat_map. exists c. split; [exact H1|]. eapply nth_error_In; eauto. Qed.
Lemma nodup_split : forall A (l1 l2 : list A), NoDup (l1 ++ l2) -> NoDup l1 /\ NoDup l2 /\ (forall x, In x l1 -> ~ In x l2).
Proof.
  induction l1 as [|x l1 IH]; intros l2 H; [repeat split; auto; constructor|]. cbn [app] in H. inversion H; subst.
  destruct (IH l2) as (A1 & A2 & A3); [assumption|]. split; [|split; [exact A2|]].
  - constructor; [|exact A1]. intros F. apply H2. apply in_or_app. auto.
  - intros y [<-|Hy] F; [apply H2; apply in_or_app; auto|]. exact (A3 y Hy F).
Qed.
Lemma nd_col : forall cs c c' z, NoDup (addrs cs) -> In c cs -> In c' cs -> In z (snd c) -> In z (snd c') -> c = c'.
Proof.
  induction cs as [|x cs IH]; intros c c' z ND H H' Z Z'; [contradiction|]. cbn [addrs flat_map] in ND.
  apply nodup_split in ND as (N1 & N2 & N3). destruct H as [->|H], H' as [->|H']; auto.
  - exfalso. apply (N3 z Z). apply in_flat_map. eauto.
  - exfalso. apply (N3 z Z'). apply in_flat_map. eauto.
  - eapply IH; eauto.
Qed.
Lemma nd_one : forall cs c, NoDup (addrs cs) -> In c cs -> NoDup (snd c).
Proof.
  induction cs as [|x cs IH]; intros c ND H; [contradiction|]. cbn [addrs flat_map] in ND.
  apply nodup_split in ND as (N1 & N2 & N3). destruct H as [->|H]; auto.
Qed.
Lemma nd_nth : forall (l : list nat) i j a, NoDup l -> nth_error l i = Some a -> nth_error l j = Some a -> i = j.
Proof.
  intros l i j a ND Hi Hj. rewrite NoDup_nth_error in ND. apply ND; [apply nth_error_Some; congruence|congruence].
Qed.
Lemma row_unique : forall cs i j z, NoDup (addrs cs) -> In z (row i cs) -> In z (row j cs) -> i = j.
Proof.
  intros cs i j z ND Hi Hj. apply in_row in Hi as (c & H1 & H2). apply in_row in Hj as (c' & H3 & H4).
  assert (c = c') as <- by (eapply nd_col; eauto using nth_error_In).
  apply (nd_nth (snd c) i j z); auto. eapply nd_one; eauto.
Qed.
Lemma row_nd : forall cs i, NoDup (addrs cs) -> NoDup (row i cs).
Proof.
  induction cs as [|c cs IH]; intros i ND; [constructor|]. cbn [addrs flat_map row] in *. apply nodup_split in ND as (N1 & N2 & N3).
  unfold nthrow at 1. destruct (nth_error (snd c) i) eqn:E; [|apply IH; exact N2]. constructor; [|apply IH; exact N2].
  intros F. apply (N3 n); [eapply nth_error_In; eauto|]. exact (row_addrs i cs n F).
Qed.
Lemma nodup_lt : forall (l : list nat) n, NoDup l -> (forall a, In a l -> a < n) -> length l <= n.
Proof.
  intros l n ND H. rewrite <- (seq_length n 0). apply NoDup_incl_length; [exact ND|]. intros a Ha. apply in_seq. specialize (H a Ha). lia.
Qed.

(** a split of a list with a distinguished element *)
Lemma split3 : forall A (l1 l2 r1 r2 : list A) x y, l1 ++ x :: l2 = r1 ++ y :: r2 ->
  (exists t, l1 = r1 ++ y :: t /\ r2 = t ++ x :: l2) \/ (l1 = r1 /\ x = y /\ l2 = r2) \/ (exists t, l2 = t ++ y :: r2 /\ r1 = l1 ++ x :: t).
Proof.
  induction l1 as [|a l1 IH]; intros l2 r1 r2 x y H.
  - destruct r1 as [|b r1]; cbn [app] in H.
    + injection H as -> ->. auto.
    + injection H as -> ->. right. right. exists r1. auto.
  - destruct r1 as [|b r1]; cbn [app] in H.
    + injection H as -> <-. left. exists l1. auto.
    + injection H as -> H. destruct (IH _ _ _ _ _ H) as [(t & -> & ->)|[(-> & -> & ->)|(t & -> & ->)]].
      * left. exists t. auto.
      * auto.
      * right. right. exists t. auto.
Qed.
Lemma split2 : forall A (l1 l2 r1 r2 : list A) y, l1 ++ l2 = r1 ++ y :: r2 ->
  (exists t, l1 = r1 ++ y :: t /\ r2 = t ++ l2) \/ (exists t, l2 = t ++ y :: r2 /\ r1 = l1 ++ t).
Proof.
  induction l1 as [|a l1 IH]; intros l2 r1 r2 y H; cbn [app] in H.
  - right. exists r1. auto.
  - destruct r1 as [|b r1]; cbn [app] in H.
    + injection H as -> <-. left. exists l1. auto.
    + injection H as -> H. destruct (IH _ _ _ _ H) as [(t & -> & ->)|(t & -> & ->)]; [left|right]; exists t; auto.
Qed.
Lemma hd_app : forall A (l r : list A) x, hd_error (l ++ x :: r) = match hd_error l with Some y => Some y | None => Some x end.
Proof. intros A [|y l] r x; reflexivity. Qed.
Lemma last_cons : forall A (l : list A) x y, last_ (x :: y :: l) = last_ (y :: l).
Proof. intros. apply (last_app_r _ [x] (y :: l)). discriminate. Qed.

Lemma linked_ext : forall h h' r, (forall z, In z r -> hp h' z = hp h z) -> linked h r -> linked h' r.
Proof. intros h h' r E L r1 a r2 H. rewrite E; [apply L; exact H|]. rewrite H. apply in_or_app. right. left. reflexivity. Qed.
Lemma upright_ext : forall h h' c, (forall z, In z (snd c) -> vp h' z = vp h z) -> upright h c -> upright h' c.
Proof. intros h h' c E L i a H. rewrite E; [apply L; exact H|]. eapply nth_error_In; eauto. Qed.

Ltac ina := repeat match goal with H : In _ (_ :: _) |- _ => cbn [In] in H end; repeat first [rewrite in_app_iff | progress cbn [In app]]; tauto.
(** a node put into a row *)
Lemma linked_add : forall h h' R1 R2 a, NoDup (R1 ++ a :: R2) -> linked h (R1 ++ R2) ->
  hp h' a = Some (hd_error R2, last_ R1) ->
  (forall m nx pv, last_ R1 = Some m -> hp h m = Some (nx, pv) -> hp h' m = Some (Some a, pv)) ->
  (forall q nx pv, hd_error R2 = Some q -> hp h q = Some (nx, pv) -> hp h' q = Some (nx, Some a)) ->
  (forall z, z <> a -> last_ R1 <> Some z -> hd_error R2 <> Some z -> hp h' z = hp h z) ->
  linked h' (R1 ++ a :: R2).
Proof.
  intros h h' R1 R2 a ND L Ha Hl Hr Ho r1 z r2 E. pose proof ND as ND0.
  apply split3 in E as [(t & E1 & E2)|[(E1 & E2 & E3)|(t & E1 & E2)]].
  - assert (X : hp h z = Some (hd_error (t ++ R2), last_ r1)).
    { apply L. rewrite E1, <- app_assoc. reflexivity. }
    assert (Hza : z <> a).
    { intros ->. rewrite E1, <- app_assoc in ND. apply NoDup_remove in ND as (_ & ND). apply ND. ina. }
    assert (Hz2 : hd_error R2 <> Some z).
    { intros F. apply hd_in in F as (R2' & ->). rewrite E1, <- app_assoc in ND. apply NoDup_remove in ND as (_ & ND). apply ND. ina. }
    subst r2. destruct t as [|y t].
    + rewrite (Hl z (hd_error R2) (last_ r1)); [reflexivity| |exact X]. rewrite E1. apply last_app.
    + rewrite Ho; [exact X|exact Hza| |exact Hz2]. rewrite E1. intros F. apply last_in in F as (l' & F).
      assert (In z (y :: t)). { destruct (@exists_last _ (y :: t)) as (t' & w & Et); [discriminate|]. rewrite Et in F. rewrite Et.
        rewrite app_comm_cons, app_assoc in F. apply app_inj_tail in F as (_ & ->). apply in_or_app. right. left. reflexivity. }
      rewrite E1, <- app_assoc in ND. apply NoDup_remove in ND as (_ & ND). apply ND. ina.
  - subst. exact Ha.
  - subst r1. assert (X : hp h z = Some (hd_error r2, last_ (R1 ++ t))).
    { apply L. rewrite E1, <- app_assoc. reflexivity. }
    assert (Hza : z <> a).
    { intros ->. rewrite E1 in ND. apply NoDup_remove in ND as (_ & ND). apply ND. ina. }
    assert (Hz1 : last_ R1 <> Some z).
    { intros F. apply last_in in F as (R1' & ->). rewrite E1, <- app_assoc in ND. apply NoDup_remove in ND as (_ & ND). apply ND. ina. }
    destruct t as [|y t].
    + rewrite (Hr z (hd_error r2) (last_ (R1 ++ []))); [|rewrite E1; reflexivity|exact X]. rewrite last_app. reflexivity.
    + rewrite Ho; [|exact Hza|exact Hz1|].
      * rewrite X. f_equal. f_equal. rewrite last_app_r by discriminate. rewrite last_app_r by discriminate. rewrite last_cons. reflexivity.
      * rewrite E1. cbn [app hd_error]. intros F. injection F as ->. rewrite E1 in ND. apply nodup_split in ND as (_ & ND & _).
        inversion ND as [|? ? _ ND2]; subst. cbn [app] in ND2. inversion ND2 as [|? ? N3 _]; subst. apply N3. apply in_or_app. right. left. reflexivity.
Qed.
(** a node taken out of a row *)
Lemma linked_del : forall h h' R1 R2 a, NoDup (R1 ++ a :: R2) -> linked h (R1 ++ a :: R2) ->
  (forall m nx pv, last_ R1 = Some m -> hp h m = Some (nx, pv) -> hp h' m = Some (hd_error R2, pv)) ->
  (forall q nx pv, hd_error R2 = Some q -> hp h q = Some (nx, pv) -> hp h' q = Some (nx, last_ R1)) ->
  (forall z, z <> a -> last_ R1 <> Some z -> hd_error R2 <> Some z -> hp h' z = hp h z) ->
  linked h' (R1 ++ R2).
Proof.
  intros h h' R1 R2 a ND L Hl Hr Ho r1 z r2 E.
  apply split2 in E as [(t & E1 & E2)|(t & E1 & E2)].
  - subst r2. assert (X : hp h z = Some (hd_error (t ++ a :: R2), last_ r1)).
    { apply L. rewrite E1, <- app_assoc. reflexivity. }
    destruct t as [|y t].
    + rewrite (Hl z (hd_error ([] ++ a :: R2)) (last_ r1)); [reflexivity| |exact X]. rewrite E1. apply last_app.
    + rewrite Ho; [exact X| | |].
      * intros ->. rewrite E1, <- app_assoc in ND. apply NoDup_remove in ND as (_ & ND). apply ND. ina.
      * rewrite E1. intros F. apply last_in in F as (l' & F).
        assert (In z (y :: t)). { destruct (@exists_last _ (y :: t)) as (t' & w & Et); [discriminate|]. rewrite Et in F. rewrite Et.
          rewrite app_comm_cons, app_assoc in F. apply app_inj_tail in F as (_ & ->). apply in_or_app. right. left. reflexivity. }
        rewrite E1, <- app_assoc in ND. apply NoDup_remove in ND as (_ & ND). apply ND. ina.
      * intros F. apply hd_in in F as (R2' & ->). rewrite E1, <- app_assoc in ND. apply NoDup_remove in ND as (_ & ND). apply ND. ina.
  - subst r1. assert (X : hp h z = Some (hd_error r2, last_ (R1 ++ a :: t))).
    { apply L. rewrite E1, <- app_assoc. reflexivity. }
    destruct t as [|y t].
    + rewrite (Hr z (hd_error r2) (last_ (R1 ++ [a]))); [|rewrite E1; reflexivity|exact X]. rewrite app_nil_r. reflexivity.
    + rewrite Ho.
      * rewrite X. f_equal. f_equal. rewrite last_app_r by discriminate. rewrite last_app_r by discriminate. rewrite last_cons. reflexivity.
      * intros ->. rewrite E1 in ND. apply NoDup_remove in ND as (_ & ND). apply ND. ina.
      * intros F. apply last_in in F as (R1' & ->). rewrite E1, <- app_assoc in ND. apply NoDup_remove in ND as (_ & ND). apply ND. ina.
      * rewrite E1. cbn [app hd_error]. intros F. injection F as ->. rewrite E1 in ND. apply nodup_split in ND as (_ & ND & _).
        inversion ND as [|? ? _ ND2]; subst. cbn [app] in ND2. inversion ND2 as [|? ? N3 _]; subst. apply N3. apply in_or_app. right. left. reflexivity.
Qed.

(** rows of a column growing or shrinking at its top *)
Lemma nthrow_snoc : forall i d l a, nthrow i (d, l ++ [a]) = if Nat.eqb i (length l) then [a] else nthrow i (d, l).
Proof.
  intros i d l a. unfold nthrow. cbn [snd]. destruct (Nat.eqb i (length l)) eqn:E.
  - apply Nat.eqb_eq in E. subst. rewrite nth_error_app2, Nat.sub_diag by lia. reflexivity.
  - apply Nat.eqb_neq in E. destruct (Nat.lt_ge_cases i (length l)).
    + rewrite nth_error_app1 by assumption. reflexivity.
    + rewrite (proj2 (nth_error_None l i)) by lia. rewrite (proj2 (nth_error_None (l ++ [a]) i)); [reflexivity|]. rewrite app_length. cbn [length]. lia.
Qed.
Lemma row_mid : forall i A d l B, row i (A ++ (d, l) :: B) = row i A ++ nthrow i (d, l) ++ row i B.
Proof. intros. rewrite row_app. reflexivity. Qed.
Lemma nthrow_top : forall d (l : list nat), nthrow (length l) (d, l) = [].
Proof. intros. unfold nthrow. cbn [snd]. rewrite (proj2 (nth_error_None l (length l))) by lia. reflexivity. Qed.
Lemma addrs_mid : forall A d l B, addrs (A ++ (d, l) :: B) = addrs A ++ l ++ addrs B.
Proof. intros. rewrite addrs_app. reflexivity. Qed.
Lemma addrs_snoc : forall A d l a B, NoDup (addrs (A ++ (d, l ++ [a]) :: B)) -> NoDup (addrs (A ++ (d, l) :: B)) /\ ~ In a (addrs (A ++ (d, l) :: B)).
Proof.
  intros A d l a B H. rewrite addrs_mid in H. rewrite addrs_mid. rewrite <- app_assoc in H. cbn [app] in H. rewrite !app_assoc in H |- *.
  apply NoDup_remove in H. exact H.
Qed.
Lemma addrs_snoc_nd : forall A d l a B, NoDup (addrs (A ++ (d, l) :: B)) -> ~ In a (addrs (A ++ (d, l) :: B)) -> NoDup (addrs (A ++ (d, l ++ [a]) :: B)).
Proof.
  intros A d l a B H H'. rewrite addrs_mid in *. rewrite <- app_assoc. cbn [app]. rewrite !app_assoc in *.
  apply NoDup_Add with (a := a) (l := (addrs A ++ l) ++ addrs B); [apply Add_app|]. split; assumption.
Qed.
Lemma addrs_snoc_in : forall A d l a B x, In x (addrs (A ++ (d, l ++ [a]) :: B)) <-> x = a \/ In x (addrs (A ++ (d, l) :: B)).
Proof.
  intros. rewrite !addrs_mid, !in_app_iff. cbn [In]. assert (E : a = x <-> x = a) by (split; auto). tauto.
Qed.

(** one more node on top of a column *)
Lemma rep_add : forall h h' fr A d l B a,
  Rep h fr (A ++ (d, l) :: B) -> ~ In a (addrs (A ++ (d, l) :: B)) ->
  hp h' a = Some (hd_error (row (length l) B), last_ (row (length l) A)) ->
  (forall m nx pv, last_ (row (length l) A) = Some m -> hp h m = Some (nx, pv) -> hp h' m = Some (Some a, pv)) ->
  (forall q nx pv, hd_error (row (length l) B) = Some q -> hp h q = Some (nx, pv) -> hp h' q = Some (nx, Some a)) ->
  (forall z, z <> a -> last_ (row (length l) A) <> Some z -> hd_error (row (length l) B) <> Some z -> hp h' z = hp h z) ->
  vp h' a = Some (d, None, last_ l) ->
  (forall z d' u b, last_ l = Some z -> vp h z = Some (d', u, b) -> vp h' z = Some (d', Some a, b)) ->
  (forall z, z <> a -> last_ l <> Some z -> vp h' z = vp h z) ->
  (forall z, z <> a -> (h' z <> None <-> h z <> None)) ->
  Rep h' (S (Nat.max fr a)) (A ++ (d, l ++ [a]) :: B).
Proof.
  intros h h' fr A d l B a R Na H1 H2 H3 H4 V1 V2 V3 D.
  pose proof (addrs_snoc_nd A d l a B (r_nd _ _ _ R) Na) as ND.
  constructor.
  - intros i. rewrite row_mid, nthrow_snoc. destruct (Nat.eqb i (length l)) eqn:E.
    + apply Nat.eqb_eq in E. subst i. cbn [app]. pose proof (r_h _ _ _ R (length l)) as L. rewrite row_mid, nthrow_top in L. cbn [app] in L.
      apply (linked_add h h'); auto. pose proof (row_nd _ (length l) ND) as X. rewrite row_mid, nthrow_snoc, Nat.eqb_refl in X. exact X.
    + apply Nat.eqb_neq in E. rewrite <- row_mid. apply (linked_ext h h'); [|apply (r_h _ _ _ R)].
      intros z Hz. apply H4.
      * intros ->. apply Na. exact (row_addrs _ _ _ Hz).
      * intros F. apply last_in in F as (r & F). apply E. apply (row_unique _ i (length l) z (r_nd _ _ _ R) Hz).
        rewrite row_mid, F. apply in_or_app. left. apply in_or_app. right. left. reflexivity.
      * intros F. apply hd_in in F as (r & F). apply E. apply (row_unique _ i (length l) z (r_nd _ _ _ R) Hz).
        rewrite row_mid, F. apply in_or_app. right. apply in_or_app. right. left. reflexivity.
  - intros c Hc. apply in_app_or in Hc. destruct (in_dec (fun a b : col => ltac:(decide equality; [apply (list_eq_dec Nat.eq_dec)|apply N.eq_dec])) c (A ++ B)) as [i|i].
    + assert (Hc' : In c (A ++ (d, l) :: B)) by (apply in_or_app; apply in_app_or in i; cbn [In]; tauto).
      apply (upright_ext h h'); [|apply (r_v _ _ _ R); exact Hc'].
      intros z Hz. apply V3.
      * intros ->. apply Na. apply in_flat_map. eauto.
      * intros F. apply last_in in F as (l' & F).
        assert (Hzl : In z l) by (rewrite F; apply in_or_app; right; left; reflexivity).
        pose proof (r_nd _ _ _ R) as N0. rewrite addrs_mid in N0.
        apply in_app_or in i. destruct i as [i|i].
        -- apply nodup_split in N0 as (_ & _ & N0). apply (N0 z); [apply in_flat_map; eauto|]. apply in_or_app. auto.
        -- apply nodup_split in N0 as (_ & N0 & _). apply nodup_split in N0 as (_ & _ & N0). apply (N0 z Hzl). apply in_flat_map. eauto.
    + assert (c = (d, l ++ [a])) as ->.
      { destruct Hc as [Hc|[Hc|Hc]]; [|congruence|]; exfalso; apply i; apply in_or_app; auto. }
      pose proof (r_v _ _ _ R (d, l) ltac:(apply in_or_app; right; left; reflexivity)) as U. unfold upright in *. cbn [fst snd] in *.
      intros j z Hz. destruct (Nat.eq_dec j (length l)) as [->|Hj].
      * rewrite nth_error_app2, Nat.sub_diag in Hz by lia. injection Hz as <-. rewrite V1. f_equal. f_equal; [f_equal|].
        -- symmetry. apply nth_error_None. rewrite app_length. cbn [length]. lia.
        -- destruct l as [|x l0]; [reflexivity|]. destruct (@exists_last _ (x :: l0)) as (l1 & w & ->); [discriminate|].
           rewrite last_app, app_length. cbn [length]. rewrite Nat.add_1_r. cbn [below]. rewrite <- app_assoc, nth_error_app2, Nat.sub_diag by lia. reflexivity.
      * assert (Hlt : j < length l).
        { assert (j < length (l ++ [a])) by (apply nth_error_Some; congruence). rewrite app_length in H. cbn [length] in H. lia. }
        rewrite nth_error_app1 in Hz by exact Hlt. pose proof (U j z Hz) as Uz.
        assert (Hb : below (l ++ [a]) j = below l j).
        { destruct j as [|j]; [reflexivity|]. cbn [below]. apply nth_error_app1. lia. }
        rewrite Hb. destruct (Nat.eq_dec (S j) (length l)) as [E|E].
        -- assert (Hla : last_ l = Some z).
           { destruct (@exists_last _ l) as (l1 & w & El); [intros ->; cbn [length] in Hlt; lia|]. rewrite El in *. rewrite last_app. f_equal.
             rewrite app_length in E. cbn [length] in E. replace j with (length l1) in Hz by lia. rewrite nth_error_app2, Nat.sub_diag in Hz by lia. injection Hz as ->. reflexivity. }
           rewrite (V2 z _ _ _ Hla Uz). f_equal. f_equal. f_equal. rewrite E, nth_error_app2, Nat.sub_diag by lia. reflexivity.
        -- rewrite V3, Uz.
           ++ f_equal. f_equal. f_equal. symmetry. apply nth_error_app1. lia.
           ++ intros ->. apply Na. rewrite addrs_mid. apply in_or_app. right. apply in_or_app. left. eapply nth_error_In; eauto.
           ++ intros F. destruct (@exists_last _ l) as (l1 & w & El); [intros ->; cbn [length] in Hlt; lia|].
              assert (NDl : NoDup l) by (apply (nd_one _ (d, l) (r_nd _ _ _ R)); apply in_or_app; right; left; reflexivity).
              assert (Hw : nth_error l (length l1) = Some z).
              { rewrite El in F |- *. rewrite last_app in F. injection F as ->. rewrite nth_error_app2, Nat.sub_diag by lia. reflexivity. }
              pose proof (nd_nth l j (length l1) z NDl Hz Hw). apply E. rewrite El, app_length. cbn [length]. lia.
  - intros z. rewrite addrs_snoc_in. destruct (Nat.eq_dec z a) as [->|Hz].
    + split; [auto|]. intros _ F. unfold hp in H1. rewrite F in H1. discriminate.
    + rewrite D by exact Hz. rewrite (r_dom _ _ _ R). tauto.
  - exact ND.
  - intros z Hz. apply addrs_snoc_in in Hz. destruct Hz as [->|Hz]; [lia|]. pose proof (r_fr _ _ _ R z Hz). lia.
Qed.
Lemma rep_fr : forall h fr fr' cs, Rep h fr cs -> (forall a, In a (addrs cs) -> a < fr') -> Rep h fr' cs.
Proof. intros h fr fr' cs R H. destruct R. constructor; auto. Qed.
(** columns without nodes do not matter *)
Lemma rep_empty : forall h fr (A : list col) d (B : list col), Rep h fr (A ++ (d, []) :: B) <-> Rep h fr (A ++ B).
Proof.
  assert (E : forall (A B : list col) d i, row i (A ++ (d, []) :: B) = row i (A ++ B)).
  { intros. rewrite row_mid, row_app. unfold nthrow. cbn [snd]. destruct i; reflexivity. }
  assert (F : forall (A B : list col) d, addrs (A ++ (d, []) :: B) = addrs (A ++ B)).
  { intros. rewrite addrs_mid, addrs_app. reflexivity. }
  intros h fr A d B. split; intros R; constructor.
  - intros i. rewrite <- (E A B d). apply (r_h _ _ _ R).
  - intros c Hc. apply (r_v _ _ _ R). apply in_or_app. apply in_app_or in Hc. cbn [In]. tauto.
  - intros a. rewrite <- (F A B d). apply (r_dom _ _ _ R).
  - rewrite <- (F A B d). apply (r_nd _ _ _ R).
  - intros a. rewrite <- (F A B d). apply (r_fr _ _ _ R).
  - intros i. rewrite E. apply (r_h _ _ _ R).
  - intros c Hc. apply in_app_or in Hc. cbn [In] in Hc. destruct Hc as [Hc|[<-|Hc]]; [apply (r_v _ _ _ R); apply in_or_app; auto| |apply (r_v _ _ _ R); apply in_or_app; auto].
    intros i a Hi. destruct i; discriminate.
  - intros a. rewrite F. apply (r_dom _ _ _ R).
  - rewrite F. apply (r_nd _ _ _ R).
  - intros a. rewrite F. apply (r_fr _ _ _ R).
Qed.

(** while a column is being taken out, top first, the up pointers of its remaining nodes are stale *)
Record Unl (h : nat -> option node) (fr : nat) (A : list col) (d : N) (l : list nat) (B : list col) : Prop := {
  u_h : forall i, linked h (row i (A ++ (d, l) :: B));
  u_v : forall c, In c (A ++ B) -> upright h c;
  u_c : forall i a, nth_error l i = Some a -> exists u, vp h a = Some (d, u, below l i);
  u_dom : forall a, h a <> None <-> In a (addrs (A ++ (d, l) :: B));
  u_nd : NoDup (addrs (A ++ (d, l) :: B));
  u_fr : forall a, In a (addrs (A ++ (d, l) :: B)) -> a < fr
}.
Lemma unl_start : forall h fr A d l B, Rep h fr (A ++ (d, l) :: B) -> Unl h fr A d l B.
Proof.
  intros h fr A d l B R. constructor; try apply R.
  - intros c Hc. apply (r_v _ _ _ R). apply in_or_app. apply in_app_or in Hc. cbn [In]. tauto.
  - intros i a Hi. pose proof (r_v _ _ _ R (d, l) ltac:(apply in_or_app; right; left; reflexivity) i a Hi) as U. cbn [fst snd] in U. eauto.
Qed.
Lemma unl_end : forall h fr (A : list col) d (B : list col), Unl h fr A d [] B -> Rep h fr (A ++ B).
Proof.
  intros h fr A d B R. apply (rep_empty h fr A d B). constructor; try apply R.
  intros c Hc. apply in_app_or in Hc. cbn [In] in Hc. destruct Hc as [Hc|[<-|Hc]].
  - apply (u_v _ _ _ _ _ _ R). apply in_or_app. auto.
  - intros i a Hi. destruct i; discriminate.
  - apply (u_v _ _ _ _ _ _ R). apply in_or_app. auto.
Qed.
Lemma below_snoc : forall l a j, j < length l -> below (l ++ [a]) j = below l j.
Proof. intros l a [|j] H; [reflexivity|]. cbn [below]. apply nth_error_app1. lia. Qed.
Lemma unl_del : forall h h' fr A d l B a,
  Unl h fr A d (l ++ [a]) B ->
  (forall m nx pv, last_ (row (length l) A) = Some m -> hp h m = Some (nx, pv) -> hp h' m = Some (hd_error (row (length l) B), pv)) ->
  (forall q nx pv, hd_error (row (length l) B) = Some q -> hp h q = Some (nx, pv) -> hp h' q = Some (nx, last_ (row (length l) A))) ->
  (forall z, z <> a -> last_ (row (length l) A) <> Some z -> hd_error (row (length l) B) <> Some z -> hp h' z = hp h z) ->
  (forall z, z <> a -> vp h' z = vp h z) -> h' a = None ->
  Unl h' fr A d l B.
Proof.
  intros h h' fr A d l B a R H1 H2 H3 V D.
  pose proof (addrs_snoc A d l a B (u_nd _ _ _ _ _ _ R)) as (ND & Na).
  constructor.
  - intros i. pose proof (u_h _ _ _ _ _ _ R i) as L. rewrite row_mid, nthrow_snoc in L. rewrite row_mid. destruct (Nat.eqb i (length l)) eqn:E.
    + apply Nat.eqb_eq in E. subst i. rewrite nthrow_top. cbn [app] in *. apply (linked_del h h' _ _ a); auto.
      pose proof (row_nd _ (length l) (u_nd _ _ _ _ _ _ R)) as X. rewrite row_mid, nthrow_snoc, Nat.eqb_refl in X. exact X.
    + apply Nat.eqb_neq in E. rewrite <- row_mid in *. apply (linked_ext h h'); [|exact L].
      intros z Hz. apply H3.
      * intros ->. apply Na. exact (row_addrs _ _ _ Hz).
      * intros F. apply last_in in F as (r & F). apply E. apply (row_unique _ i (length l) z ND Hz).
        rewrite row_mid, F. apply in_or_app. left. apply in_or_app. right. left. reflexivity.
      * intros F. apply hd_in in F as (r & F). apply E. apply (row_unique _ i (length l) z ND Hz).
        rewrite row_mid, F. apply in_or_app. right. apply in_or_app. right. left. reflexivity.
  - intros c Hc. apply (upright_ext h h'); [|apply (u_v _ _ _ _ _ _ R); exact Hc]. intros z Hz. apply V. intros ->. apply Na.
    rewrite addrs_mid. apply in_app_or in Hc. destruct Hc as [Hc|Hc]; apply in_or_app.
    + left. apply in_flat_map. eauto.
    + right. apply in_or_app. right. apply in_flat_map. eauto.
  - intros i z Hi. assert (Hlt : i < length l) by (apply nth_error_Some; congruence).
    destruct (u_c _ _ _ _ _ _ R i z) as (u & U); [rewrite nth_error_app1 by exact Hlt; exact Hi|]. exists u.
    rewrite V; [|intros ->; apply Na; rewrite addrs_mid; apply in_or_app; right; apply in_or_app; left; eapply nth_error_In; eauto].
    rewrite U, below_snoc by exact Hlt. reflexivity.
  - intros z. destruct (Nat.eq_dec z a) as [->|Hz].
    + rewrite D. split; [congruence|]. intros F. contradiction.
    + pose proof (u_dom _ _ _ _ _ _ R z) as X. rewrite addrs_snoc_in in X.
      assert (Y : h' z <> None <-> h z <> None).
      { pose proof (V z Hz) as W. unfold vp in W. destruct (h' z), (h z); cbn in W; try discriminate; split; congruence. }
      rewrite Y, X. tauto.
  - exact ND.
  - intros z Hz. apply (u_fr _ _ _ _ _ _ R). apply addrs_snoc_in. auto.
Qed.
(** the top node of the first column taken off, alone in its row *)
Lemma rep_pop : forall h h' fr d l B a,
  Rep h fr ((d, l ++ [a]) :: B) -> (forall z, z <> a -> hp h' z = hp h z) ->
  (forall z d' u b, last_ l = Some z -> vp h z = Some (d', u, b) -> vp h' z = Some (d', None, b)) ->
  (forall z, z <> a -> last_ l <> Some z -> vp h' z = vp h z) -> h' a = None -> row (length l) B = [] ->
  Rep h' fr ((d, l) :: B).
Proof.
  intros h h' fr d l B a R H V1 V2 D E0. pose proof (addrs_snoc [] d l a B (r_nd _ _ _ R)) as (ND & Na). cbn [app] in ND, Na.
  constructor.
  - intros i. pose proof (r_h _ _ _ R i) as L. change ((d, l ++ [a]) :: B) with ([] ++ (d, l ++ [a]) :: B) in L. rewrite row_mid, nthrow_snoc in L.
    change ((d, l) :: B) with ([] ++ (d, l) :: B). rewrite row_mid. cbn [row flat_map app] in *. fold (row i B) in *.
    destruct (Nat.eqb i (length l)) eqn:E.
    + apply Nat.eqb_eq in E. subst i. rewrite nthrow_top, E0. intros r1 x r2 F. destruct r1; discriminate.
    + apply (linked_ext h h'); [|exact L]. intros z Hz. apply H. intros ->. apply Na.
      change (nthrow i (d, l) ++ row i B) with (row i ((d, l) :: B)) in Hz. exact (row_addrs _ _ _ Hz).
  - intros c [<-|Hc].
    + pose proof (r_v _ _ _ R (d, l ++ [a]) (or_introl eq_refl)) as U. unfold upright in *. cbn [fst snd] in *. intros i z Hi.
      assert (Hlt : i < length l) by (apply nth_error_Some; congruence).
      pose proof (U i z) as U0. rewrite nth_error_app1 in U0 by exact Hlt. specialize (U0 Hi). rewrite below_snoc in U0 by exact Hlt.
      assert (NDl : NoDup l) by (apply (nd_one _ (d, l) ND); left; reflexivity).
      destruct (Nat.eq_dec (S i) (length l)) as [E|E].
      * assert (Hla : last_ l = Some z).
        { destruct (@exists_last _ l) as (l1 & w & El); [intros ->; cbn [length] in Hlt; lia|]. rewrite El in *. rewrite last_app. f_equal.
          rewrite app_length in E. cbn [length] in E. replace i with (length l1) in Hi by lia. rewrite nth_error_app2, Nat.sub_diag in Hi by lia. injection Hi as ->. reflexivity. }
        rewrite (V1 z _ _ _ Hla U0). f_equal. f_equal. f_equal. symmetry. apply nth_error_None. lia.
      * rewrite nth_error_app1 in U0 by lia. rewrite V2, U0; [reflexivity| |].
        -- intros ->. apply Na. apply in_or_app. left. eapply nth_error_In; eauto.
        -- intros F. destruct (@exists_last _ l) as (l1 & w & El); [intros ->; cbn [length] in Hlt; lia|].
           assert (Hw : nth_error l (length l1) = Some z).
           { rewrite El in F |- *. rewrite last_app in F. injection F as ->. rewrite nth_error_app2, Nat.sub_diag by lia. reflexivity. }
           pose proof (nd_nth l i (length l1) z NDl Hi Hw). apply E. rewrite El, app_length. cbn [length]. lia.
    + apply (upright_ext h h'); [|apply (r_v _ _ _ R); right; exact Hc]. intros z Hz. cbn [addrs flat_map snd] in ND, Na.
      assert (HzB : In z (flat_map snd B)) by (apply in_flat_map; eauto).
      apply V2.
      * intros ->. apply Na. apply in_or_app. auto.
      * intros F. apply last_in in F as (l' & F). apply nodup_split in ND as (_ & _ & ND). apply (ND z); [|exact HzB].
        rewrite F. apply in_or_app. right. left. reflexivity.
  - intros z. destruct (Nat.eq_dec z a) as [->|Hz].
    + rewrite D. split; [congruence|]. intros F. contradiction.
    + pose proof (r_dom _ _ _ R z) as X. rewrite (addrs_snoc_in [] d l a B z) in X. cbn [app] in X.
      assert (Y : h' z <> None <-> h z <> None).
      { pose proof (H z Hz) as W. unfold hp in W. destruct (h' z), (h z); cbn in W; try discriminate; split; congruence. }
      rewrite Y, X. tauto.
  - exact ND.
  - intros z Hz. apply (r_fr _ _ _ R). apply (addrs_snoc_in [] d l a B z). auto.
Qed.
