From Coq Require Import NArith ZArith List Bool String Lia ZifyBool ZifyNat ZifyN.
From Verif.Head Require Import Model Spec Proofs Proofs2 Proofs3.
Import ListNotations.
Local Open Scope string_scope.
Local Open Scope list_scope.
Local Open Scope nat_scope.

Lemma front_crlf_cons : forall q d, front CRLF (crlfs (S q) ++ d) = true.
Proof. intros. apply front_iff. exists (crlfs q ++ d). reflexivity. Qed.

Lemma eat_front : forall j q d a, front CRLF d = false ->
  eat (List.length (crlfs q ++ d)) (mkblk (crlfs j ++ crlfs q ++ d) (2 * j) (List.length (crlfs q ++ d)) a)
  = mkblk (crlfs (j + q) ++ d) (2 * (j + q)) (List.length d) a.
Proof.
  intros j q d a F. destruct (Nat.eq_dec (List.length (crlfs q ++ d)) 0) as [Z|Z].
  - assert (q = 0) as -> by (rewrite app_length, crlfs_length in Z; lia).
    assert (d = []) as -> by (destruct d; [auto|rewrite app_length in Z; cbn in Z; lia]).
    replace (j + 0) with j by lia. reflexivity.
  - rewrite crlfs_app, <- app_assoc. replace (2 * j) with (List.length (crlfs j)) by apply crlfs_length.
    rewrite eat_crlfs; auto.
    + f_equal. rewrite app_length, !crlfs_length. lia.
    + rewrite app_length, crlfs_length in *. lia.
Qed.
Lemma fin_eat : forall B j q d a, front CRLF d = false ->
  finalize B (mkinput [mkblk (crlfs j ++ crlfs q ++ d) (2 * j) (List.length (crlfs q ++ d)) a] 0 0)
  = finalize B (mkinput [mkblk (crlfs (j + q) ++ d) (2 * (j + q)) (List.length d) a] 0 0).
Proof.
  intros B j q d a F. unfold finalize. cbn [cur blocks Nat.eqb eat_crlf size off].
  rewrite (eat_front j q d a F).
  pose proof (eat_front (j + q) 0 d a F) as E. cbn [crlfs app] in E. rewrite Nat.add_0_r in E. rewrite E. reflexivity.
Qed.
Lemma fin_wait : forall B j d a, front CRLF d = false -> memmem REQ_PAT d = None ->
  finalize B (mkinput [mkblk (crlfs j ++ d) (2 * j) (List.length d) a] 0 0)
  = Done (Wait (mkinput [mkblk (crlfs j ++ d) (2 * j) (List.length d) a] 0 0)).
Proof.
  intros B j d a F M. unfold finalize. cbn [cur blocks Nat.eqb eat_crlf size off].
  pose proof (eat_front j 0 d a F) as E. cbn [crlfs app] in E. rewrite Nat.add_0_r in E. rewrite E.
  cbn [skipn search]. pose proof (data_mid (crlfs j) d [] a) as D. rewrite app_nil_r, crlfs_length in D.
  rewrite D. change (0 - REQ_PATSIZE) with 0. cbn [skipn]. rewrite M. reflexivity.
Qed.

(** where the reading stands: the bytes so far are line ends and a part of the head *)
Inductive at_ (B : nat) : input -> bytes -> Prop :=
| at_none : at_ B no_input []
| at_block j d : front CRLF d = false ->
    at_ B (mkinput [mkblk (crlfs j ++ d) (2 * j) (List.length d) B] 0 0) (crlfs j ++ d).

Lemma short_crlfs : forall m x y, x ++ y = crlfs m -> exists q d, x = crlfs q ++ d /\ (d = [] \/ d = [13%N]).
Proof.
  induction m as [|m IH]; intros x y E.
  - destruct x; [|discriminate]. exists 0, []. split; [reflexivity|auto].
  - destruct x as [|a x]. { exists 0, []. split; [reflexivity|auto]. } destruct x as [|b x].
    { cbn in E. injection E as Ha _. subst a. exists 0, [13%N]. split; [reflexivity|auto]. }
    cbn in E. injection E as Ha Hb E. subst a b. destruct (IH _ _ E) as (q & d & -> & H). exists (S q), d. split; [reflexivity|auto].
Qed.

(** the input so far, cut into line ends and the rest *)
Lemma so_far : forall n h rest x y, whole h -> x ++ y = crlfs n ++ h ++ rest ->
  (exists more, x = crlfs n ++ h ++ more /\ rest = more ++ y) \/
  (List.length x < List.length (crlfs n ++ h) /\
   exists q d, x = crlfs q ++ d /\ front CRLF d = false /\ memmem REQ_PAT d = None).
Proof.
  intros n h rest x y W E. destruct (Nat.le_gt_cases (List.length (crlfs n ++ h)) (List.length x)) as [L|L].
  - left. rewrite app_assoc in E. symmetry in E. destruct (app_cut _ _ _ _ _ E L) as (m & -> & ->).
    exists m. rewrite <- app_assoc. auto.
  - right. split; auto. destruct (Nat.le_gt_cases (List.length (crlfs n)) (List.length x)) as [L2|L2].
    + symmetry in E. destruct (app_cut _ _ _ _ _ E L2) as (d & -> & E2). exists n, d.
      rewrite !app_length in L. symmetry in E2. destruct (app_cut _ _ _ _ _ E2) as (m & -> & _); [lia|].
      destruct (whole_prefix _ d m W eq_refl); auto. intros ->. rewrite app_nil_r in L. lia.
    + destruct (app_cut _ _ _ _ _ E) as (m & Em & _); [lia|]. symmetry in Em.
      destruct (short_crlfs _ _ _ Em) as (q & d & -> & H). exists q, d. destruct H as [-> | ->]; auto.
Qed.

Definition right_outcome (h rest : bytes) (ans : list answer) (n : nat) (o : outcome) : Prop :=
  match o with
  | Waiting _ _ => readies ans < n
  | Served r l u => head_result h = Done r /\ pending l u = rest
  | Closed => head_result h = Refused
  | Undefined => head_result h = Bad
  end.

Lemma right_more : forall h rest ans n m o k, right_outcome h rest ans n o -> n + k <= m ->
  forall ans', readies ans' <= readies ans + k -> right_outcome h rest ans' m o.
Proof. intros h rest ans n m [i u|r l u| |] k H L ans' R; cbn in *; auto. lia. Qed.

Lemma room_one : forall B i x, at_ B i x -> List.length x <= B - B / 4 -> (x = [] -> 0 < B) ->
  exists j d, x = crlfs j ++ d /\ room B (blocks i) = [mkblk (crlfs j ++ d) (2 * j) (List.length d) B]
    /\ cur i = 0 /\ off i = 0.
Proof.
  intros B i x A L Bp. destruct A as [|j d F].
  - exists 0, []. auto.
  - exists j, d. repeat split; auto. unfold room. cbn [blocks rev app size].
    unfold space, minread. cbn [allocd size start]. rewrite app_length, crlfs_length in L.
    replace ((B - List.length d - 2 * j <? B / 4)) with false.
    + rewrite andb_false_r. reflexivity.
    + symmetry. apply Nat.ltb_ge. pose proof (Nat.div_le_upper_bound B 4 B). lia.
Qed.

Lemma reads_block : forall B n h rest, whole h -> List.length (crlfs n ++ h) <= B - B / 4 ->
  forall ans i x y, at_ B i x -> x ++ y = crlfs n ++ h ++ rest -> List.length x < List.length (crlfs n ++ h) ->
  ~ In Eof ans ->
  right_outcome h rest ans (List.length (crlfs n ++ h) - List.length x) (reads B i ans y).
Proof.
  intros B n h rest W Lim. induction ans as [|a ans IH]; intros i x y A E L NE.
  - cbn [reads right_outcome readies filter List.length]. unfold readies. cbn. lia.
  - assert (Bp : 0 < B). { pose proof (Nat.div_lt B 4). lia. }
    destruct (room_one B i x A ltac:(lia) ltac:(auto)) as (j & d & Ex & R & C0 & O0).
    cbn [reads]. rewrite R, C0, O0. cbn [last_space put]. unfold space. cbn [allocd size start mem].
    set (r := match a with Ready m => firstn (Nat.min (S m) (B - List.length d - 2 * j)) y | _ => [] end).
    assert (Er : r ++ skipn (List.length r) y = y).
    { subst r. destruct a; [|reflexivity|reflexivity].
      set (m := Nat.min (S n0) (B - List.length d - 2 * j)). rewrite firstn_length.
      destruct (Nat.le_gt_cases m (List.length y)) as [H|H].
      - rewrite Nat.min_l by exact H. apply firstn_skipn.
      - rewrite firstn_all2, skipn_all2 by lia. apply app_nil_r. }
    assert (Ew : crlfs j ++ d ++ r = x ++ r) by (rewrite Ex, <- app_assoc; reflexivity).
    assert (E2 : (x ++ r) ++ skipn (List.length r) y = crlfs n ++ h ++ rest).
    { rewrite <- app_assoc, Er. exact E. }
    replace (List.length d + List.length r) with (List.length (d ++ r)) by apply app_length.
    rewrite <- app_assoc.
    assert (Hw : forall q d', x ++ r = crlfs q ++ d' -> front CRLF d' = false ->
      finalize B (mkinput [mkblk (crlfs j ++ d ++ r) (2 * j) (List.length (d ++ r)) B] 0 0)
      = finalize B (mkinput [mkblk (crlfs q ++ d') (2 * q) (List.length d') B] 0 0)).
    { intros q d' Eq F'. rewrite <- Ew in Eq.
      assert (J : j <= q).
      { destruct (Nat.le_gt_cases j q); auto. exfalso.
        replace j with (q + S (j - q - 1)) in Eq by lia. rewrite crlfs_app, <- app_assoc in Eq.
        apply app_inv_head in Eq. rewrite <- Eq in F'. rewrite front_crlf_cons in F'. discriminate. }
      replace q with (j + (q - j)) in * by lia. rewrite crlfs_app, <- app_assoc in Eq.
      apply app_inv_head in Eq. rewrite Eq. rewrite fin_eat by auto. reflexivity. }
    destruct (so_far n h rest (x ++ r) _ W E2) as [(more & Em & Er2)|(Lx & q & d' & Eq & F' & M')].
    + rewrite (Hw n (h ++ more)) by (auto using whole_start). rewrite fin_whole by auto.
      destruct (head_result h) as [rq| |] eqn:HR; cbn [bind]; try (cbn; auto; fail).
      cbn [right_outcome]. split; auto. rewrite Er2. unfold pending. f_equal. destruct more as [|c more]; auto.
      cbn [map List.concat]. rewrite app_nil_r. unfold data. cbn [mem start size skipn]. apply firstn_all.
    + rewrite (Hw q d') by auto. rewrite fin_wait by auto.
      assert (A' : at_ B (mkinput [mkblk (crlfs q ++ d') (2 * q) (List.length d') B] 0 0) (x ++ r)).
      { rewrite Eq. constructor. exact F'. }
      destruct a as [m| |].
      * assert (Yne : y <> []).
        { intros ->. rewrite app_nil_r in E. rewrite E, !app_length in L. lia. }
        assert (Rne : r <> []).
        { subst r. rewrite Ex, app_length, crlfs_length in L.
          replace (Nat.min (S m) (B - List.length d - 2 * j)) with (S (Nat.min (S m) (B - List.length d - 2 * j) - 1)) by lia.
          destruct y; [contradiction|]. discriminate. }
        fold r. destruct r as [|c r']; [contradiction|].
        eapply right_more with (k := 1); [eapply IH; eauto| |].
        -- intro I. apply NE. right. exact I.
        -- rewrite !app_length in *. cbn [List.length] in *. lia.
        -- unfold readies. cbn. lia.
      * subst r. cbn [List.length skipn] in *. rewrite app_nil_r in *.
        eapply right_more with (k := 0); [eapply IH; eauto| |].
        -- intro I. apply NE. right. exact I.
        -- lia.
        -- unfold readies. cbn. lia.
      * exfalso. apply NE. left. reflexivity.
Qed.

Lemma serve_block : forall B n h rest ans, whole h -> List.length (crlfs n ++ h) <= B - B / 4 -> ~ In Eof ans ->
  right_outcome h rest ans (List.length (crlfs n ++ h)) (serve B ans (crlfs n ++ h ++ rest)).
Proof.
  intros B n h rest ans W L NE. unfold serve.
  pose proof (reads_block B n h rest W L ans no_input [] (crlfs n ++ h ++ rest) (at_none B) eq_refl) as X.
  cbn [List.length] in X. rewrite Nat.sub_0_r in X. apply X; auto.
  rewrite app_length. destruct (w_end _ W) as [t ->]. rewrite app_length. cbn. lia.
Qed.
