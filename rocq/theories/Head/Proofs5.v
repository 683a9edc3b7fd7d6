From Coq Require Import NArith ZArith List Bool String Lia ZifyBool ZifyNat ZifyN.
From Verif.Head Require Import Model Spec Proofs Proofs2 Proofs3 Proofs4.
Import ListNotations.
Local Open Scope string_scope.
Local Open Scope list_scope.
Local Open Scope nat_scope.

(** * Lines and whole heads *)

Lemma text_app : forall a b, text (a ++ b) = text a ++ text b.
Proof. induction a as [|l a IH]; intro b; cbn; auto. rewrite IH, <- app_assoc. reflexivity. Qed.

Lemma pat_position : forall ls a b, Forall (fun l => one_line l /\ l <> []) ls ->
  head ls = a ++ REQ_PAT ++ b -> b = [].
Proof.
  induction ls as [|l ls IH]; intros a b F E.
  - exfalso. assert (X : List.length (head []) = List.length (a ++ REQ_PAT ++ b)) by (rewrite E; reflexivity).
    rewrite !app_length in X. cbn in X. lia.
  - inversion F as [|? ? [O Ne] F']; subst. unfold head in E. cbn [text] in E. rewrite <- app_assoc in E. cbn [app] in E.
    pose proof (crlf_position l (text ls ++ [13%N; 10%N]) a (13%N :: 10%N :: b) O E) as P.
    destruct (app_cut _ _ _ _ _ E P) as (m & -> & E2).
    destruct m as [|x m].
    + cbn in E2. injection E2 as E2. destruct ls as [|l2 ls].
      * cbn in E2. injection E2 as <-. reflexivity.
      * exfalso. inversion F' as [|? ? [O2 Ne2] _]; subst. cbn [text] in E2. rewrite <- app_assoc in E2. cbn [app] in E2.
        pose proof (crlf_position l2 (text ls ++ [13%N; 10%N]) [] b O2 E2) as P2.
        destruct l2; [contradiction|cbn in P2; lia].
    + destruct m as [|y m]; cbn in E2.
      * injection E2 as _ X. discriminate.
      * injection E2 as _ _ E3. apply (IH m b F'). exact E3.
Qed.
Lemma head_whole : forall ls, ls <> [] -> Forall (fun l => one_line l /\ l <> []) ls -> whole (head ls).
Proof.
  intros ls N F. constructor.
  - destruct (exists_last N) as (a & l & ->). exists (text a ++ l). unfold head. rewrite text_app. cbn [text].
    rewrite <- !app_assoc. reflexivity.
  - intros a b E. eapply pat_position; eauto.
  - destruct ls as [|l ls]; [contradiction|]. inversion F as [|? ? [O Ne] _]; subst.
    destruct (front CRLF (head (l :: ls))) eqn:X; auto. exfalso. apply front_iff in X as [r E].
    unfold head in E. cbn [text] in E. rewrite <- app_assoc in E. cbn [app] in E.
    pose proof (crlf_position l (text ls ++ [13%N; 10%N]) [] r O E). destruct l; [contradiction|cbn in *; lia].
Qed.
Lemma head_result_text : forall ls, head_result (head ls) = parse_body (text ls).
Proof.
  intros. unfold head_result, head. rewrite app_length. cbn [List.length].
  replace (List.length (text ls) + 2 - 2) with (List.length (text ls)) by lia. rewrite firstn_exact. reflexivity.
Qed.

(** * What is concluded *)

Lemma conclude_line1 : forall s m u p, line1 s = Some (m, u, p) -> hget (headers s) (bs "expect") = None ->
  conclude s = Done (mkrequest m u p (method_enum m) (protocol_enum p) (headers s)
                               (gzip s) (deflate s) (lz4f s) (framing (headers s)) false).
Proof. intros s m u p L E. unfold conclude. rewrite L, E. reflexivity. Qed.

Lemma started_get : forall m u p hs k o, last_value k hs o -> hget (headers (put_fields (started m u p) hs)) k = o.
Proof. intros. apply put_fields_last; auto. Qed.

(** * Two blocks *)

Definition b_of (B : nat) (d : bytes) : blk := mkblk d 0 (List.length d) B.
Lemma data_b_of : forall B d, data (b_of B d) = d.
Proof. intros. unfold data, b_of. cbn. apply firstn_all. Qed.

Lemma eat_none : forall fuel b, front CRLF (data b) = false -> eat fuel b = b.
Proof. intros [|fuel] b F; cbn [eat]; auto. rewrite F, andb_false_r. reflexivity. Qed.

Lemma step_first : forall B d1 d2 ans k, whole (d1 ++ d2) -> d2 <> [] -> d1 <> [] ->
  List.length d1 <= B ->
  k = List.length d1 - 1 ->
  serve B (Ready k :: ans) (d1 ++ d2) = reads B (mkinput [b_of B d1] 0 0) ans d2.
Proof.
  intros B d1 d2 ans k W N2 N1 L ->. unfold serve. cbn [reads blocks no_input room rev app last_space put cur off].
  unfold space. cbn [allocd size start mem]. 
  assert (L1 : 0 < List.length d1) by (destruct d1; [contradiction|cbn; lia]).
  replace (Nat.min (S (List.length d1 - 1)) (B - 0 - 0)) with (List.length d1) by lia.
  rewrite firstn_exact. cbn [app]. destruct (whole_prefix _ d1 d2 W eq_refl N2) as [M F].
  pose proof (fin_wait B 0 d1 B F M) as X. cbn [crlfs app] in X. change (2 * 0) with 0 in X.
  change (0 + List.length d1) with (List.length d1). rewrite X. rewrite skipn_exact.
  destruct d1; [contradiction|reflexivity].
Qed.
Lemma room_second : forall B d1, d1 <> [] -> B - List.length d1 < B / 4 ->
  room B [b_of B d1] = [b_of B d1; mkblk [] 0 0 B].
Proof.
  intros B d1 N1 L. unfold room. cbn [rev app]. unfold b_of at 1 2, space, minread. cbn [size allocd start].
  assert (L1 : 0 < List.length d1) by (destruct d1; [contradiction|cbn; lia]).
  replace (0 <? List.length d1) with true by lia.
  replace (B - List.length d1 - 0 <? B / 4) with true by lia.
  replace (B / 4 <? B) with true. { reflexivity. }
  symmetry. apply Nat.ltb_lt. apply Nat.div_lt; lia.
Qed.
Lemma step_second : forall B d1 d2 ans k, d2 <> [] -> d1 <> [] ->
  List.length d2 <= B -> B - List.length d1 < B / 4 -> k = List.length d2 - 1 ->
  reads B (mkinput [b_of B d1] 0 0) (Ready k :: ans) d2 =
  match finalize B (mkinput [b_of B d1; b_of B d2] 0 0) with
  | Done (Wait i) => reads B i ans []
  | Done (Complete r l) => Served r l []
  | Refused => Closed
  | Bad => Undefined
  end.
Proof.
  intros B d1 d2 ans k N2 N1 L2 Sp ->. cbn [reads blocks]. rewrite room_second by auto.
  cbn [last_space put cur off]. unfold space. cbn [allocd size start mem app].
  assert (L1 : 0 < List.length d2) by (destruct d2; [contradiction|cbn; lia]).
  replace (Nat.min (S (List.length d2 - 1)) (B - 0 - 0)) with (List.length d2) by lia.
  rewrite firstn_all, skipn_all. change (0 + List.length d2) with (List.length d2).
  change (mkblk d2 0 (List.length d2) B) with (b_of B d2).
  destruct (finalize B _) as [[i|r l]| |]; auto. destruct d2; [contradiction|reflexivity].
Qed.
(** the search when two blocks are there *)
Lemma fin_two : forall B d1 d2, whole (d1 ++ d2) -> d2 <> [] -> 1 < List.length d1 ->
  finalize B (mkinput [b_of B d1; b_of B d2] 0 0) =
  match search 1 (Some (b_of B d1)) (b_of B d2) [] 0 with
  | SBad => Bad
  | SWait c o => Done (Wait (mkinput [b_of B d1; b_of B d2] c o))
  | SMatch c o =>
      match nth_error [b_of B d1; b_of B d2] c with
      | None => Bad
      | Some b =>
          if o <? size b then
            if S c =? 2 then
              bind (dissect B (firstn c [b_of B d1; b_of B d2] ++ [mkblk (mem b) (start b) o (allocd b)]))
                   (fun r => Done (Complete r [mkblk (skipn o (data b)) 0 (size b - o) (size b - o)]))
            else Bad
          else bind (dissect B [b_of B d1; b_of B d2]) (fun r => Done (Complete r []))
      end
  end.
Proof.
  intros B d1 d2 W N2 L1. destruct (whole_prefix _ d1 d2 W eq_refl N2) as [M F].
  unfold finalize. cbn [cur blocks Nat.eqb eat_crlf off]. rewrite eat_none by (rewrite data_b_of; exact F).
  replace (size (b_of B d1) =? 1) with false by (cbn; destruct d1 as [|? [|? ?]]; cbn in *; try lia; reflexivity).
  cbn [andb skipn search]. rewrite (data_b_of B d1). change (0 - REQ_PATSIZE) with 0. cbn [skipn]. rewrite M.
  reflexivity.
Qed.
Lemma wait_again : forall B d1 d2 o m, d2 <> [] -> List.length d2 <= 3 -> 4 * 3 <= B ->
  search 1 (Some (b_of B d1)) (b_of B d2) [] o = SWait 1 o ->
  reads B (mkinput [b_of B d1; b_of B d2] 1 o) (repeat Again m) [] = Waiting (mkinput [b_of B d1; b_of B d2] 1 o) [].
Proof.
  intros B d1 d2 o m N2 L2 LB H. induction m as [|m IH]; auto. cbn [repeat reads blocks].
  assert (R : room B [b_of B d1; b_of B d2] = [b_of B d1; b_of B d2]).
  { unfold room. cbn [rev app]. unfold b_of at 1 2, space, minread. cbn [size allocd start].
    replace (B - List.length d2 - 0 <? B / 4) with false.
    - rewrite andb_false_r. reflexivity.
    - symmetry. apply Nat.ltb_ge. pose proof (Nat.div_mod B 4). lia. }
  rewrite R. cbn [last_space put cur off].
  replace (mkblk (mem (b_of B d2) ++ []) (start (b_of B d2)) (size (b_of B d2) + List.length (@nil N)) (allocd (b_of B d2)))
    with (b_of B d2) by (unfold b_of; cbn [mem start size allocd List.length]; rewrite app_nil_r, Nat.add_0_r; reflexivity).
  unfold finalize. cbn [cur Nat.eqb blocks skipn nth_error off]. rewrite H. exact IH.
Qed.

(** the empty line at the end of the head over two blocks *)
Lemma prev_end : forall B a z, skipn (List.length (a ++ z) - List.length z) (mem (b_of B (a ++ z))) = z.
Proof. intros. cbn [b_of mem]. rewrite app_length, Nat.add_sub. apply skipn_exact. Qed.

Lemma search_3_1 : forall B a, search 1 (Some (b_of B (a ++ [13; 10; 13]%N))) (b_of B [10%N]) [] 0 = SWait 1 1
  /\ search 1 (Some (b_of B (a ++ [13; 10; 13]%N))) (b_of B [10%N]) [] 1 = SWait 1 1.
Proof.
  intros B a. split.
  - cbn [search]. unfold REQ_PATSIZE at 1. cbn [cross]. rewrite data_b_of. cbn [b_of size start mem List.length].
    change (0 <? REQ_PATSIZE - 1) with true. change (1 <=? 0) with false. change (1 <? 1) with false.
    change (true && false)%bool with false. cbv iota. change (beq (firstn 1 [10%N]) (skipn (REQ_PATSIZE - 1) REQ_PAT)) with true. cbv iota.
    rewrite app_length. cbn [List.length]. change (REQ_PATSIZE - 1) with 3.
    replace (0 + (List.length a + 3) <? 3) with false by lia.
    replace (0 + (List.length a + 3) - 3) with (List.length a) by lia. rewrite skipn_exact.
    change (beq (firstn 3 [13; 10; 13]%N) (firstn 3 (skipn 1 REQ_PAT))) with false. cbv iota.
    reflexivity.
  - reflexivity.
Qed.
Lemma search_1_3 : forall B a, 2 <= List.length a -> search 1 (Some (b_of B (a ++ [13]%N))) (b_of B [10; 13; 10]%N) [] 0 = SWait 1 3
  /\ search 1 (Some (b_of B (a ++ [13]%N))) (b_of B [10; 13; 10]%N) [] 3 = SWait 1 3.
Proof.
  intros B a La. split; [|reflexivity].
  destruct (exists_last (l := a)) as (a1 & y & ->). { intros ->. cbn in La. lia. }
  destruct (exists_last (l := a1)) as (a2 & x & ->). { intros ->. cbn in La. lia. }
  cbn [search]. unfold REQ_PATSIZE at 1.
  set (p := b_of B (((a2 ++ [x]) ++ [y]) ++ [13%N])).
  assert (Lp : start p + size p = List.length a2 + 3) by (cbn; rewrite !app_length; cbn; lia).
  assert (M3 : skipn (List.length a2) (mem p) = [x; y; 13%N]).
  { cbn [p b_of mem]. rewrite <- !app_assoc. cbn [app]. apply skipn_exact. }
  assert (M1 : skipn (List.length a2 + 2) (mem p) = [13%N]).
  { replace (List.length a2 + 2) with (List.length ((a2 ++ [x]) ++ [y])) by (rewrite !app_length; cbn; lia).
    cbn [p b_of mem]. apply skipn_exact. }
  clearbody p.
  assert (C1 : cross 1 p (b_of B [10; 13; 10]%N) true 3 = CThrough 3) by reflexivity.
  assert (C2 : cross 2 p (b_of B [10; 13; 10]%N) true 2 = CThrough 3).
  { cbn [cross]. change (2 <? REQ_PATSIZE - 1) with true. change (true && (size (b_of B [10; 13; 10]%N) <=? 2))%bool with false.
    change (size (b_of B [10; 13; 10]%N) <? 3) with false. cbv iota. rewrite data_b_of.
    change (beq (firstn 3 [10; 13; 10]%N) (skipn (REQ_PATSIZE - 3) REQ_PAT)) with true. cbv iota.
    change (REQ_PATSIZE - 3) with 1. rewrite Lp. replace (List.length a2 + 3 <? 1) with false by lia.
    replace (List.length a2 + 3 - 1) with (List.length a2 + 2) by lia. rewrite M1. cbv iota.
    change (beq (firstn 1 [13%N]) (firstn 1 (skipn 3 REQ_PAT))) with false. reflexivity. }
  assert (C3 : cross 3 p (b_of B [10; 13; 10]%N) true 1 = CThrough 3).
  { rewrite <- C2. reflexivity. }
  assert (C4 : cross 4 p (b_of B [10; 13; 10]%N) true 0 = CThrough 3).
  { rewrite <- C3. cbn [cross]. change (0 <? REQ_PATSIZE - 1) with true. change (true && (size (b_of B [10; 13; 10]%N) <=? 0))%bool with false.
    change (size (b_of B [10; 13; 10]%N) <? 1) with false. cbv iota. rewrite data_b_of.
    change (beq (firstn 1 [10; 13; 10]%N) (skipn (REQ_PATSIZE - 1) REQ_PAT)) with true. cbv iota.
    change (REQ_PATSIZE - 1) with 3. rewrite Lp. replace (List.length a2 + 3 <? 3) with false by lia.
    replace (List.length a2 + 3 - 3) with (List.length a2) by lia. rewrite M3.
    assert (X : beq (firstn 3 [x; y; 13%N]) (firstn 3 (skipn 1 REQ_PAT)) = false).
    { cbn. rewrite andb_false_r. destruct (x =? 10)%N; destruct (y =? 13)%N; reflexivity. }
    rewrite X. reflexivity. }
  rewrite C4. reflexivity.
Qed.
Lemma search_2_2 : forall B a, search 1 (Some (b_of B (a ++ [13; 10]%N))) (b_of B [13; 10]%N) [] 0 = SMatch 1 2.
Proof.
  intros B a. cbn [search]. unfold REQ_PATSIZE at 1.
  set (p := b_of B (a ++ [13; 10]%N)).
  assert (Lp : start p + size p = List.length a + 2) by (cbn; rewrite !app_length; cbn; lia).
  assert (M2 : skipn (List.length a) (mem p) = [13; 10]%N) by (cbn [p b_of mem]; apply skipn_exact).
  clearbody p.
  assert (C3 : cross 3 p (b_of B [13; 10]%N) true 1 = CMatch 2).
  { cbn [cross]. change (1 <? REQ_PATSIZE - 1) with true. change (true && (size (b_of B [13; 10]%N) <=? 1))%bool with false.
    change (size (b_of B [13; 10]%N) <? 2) with false. cbv iota. rewrite data_b_of.
    change (beq (firstn 2 [13; 10]%N) (skipn (REQ_PATSIZE - 2) REQ_PAT)) with true. cbv iota.
    change (REQ_PATSIZE - 2) with 2. rewrite Lp. replace (List.length a + 2 <? 2) with false by lia.
    replace (List.length a + 2 - 2) with (List.length a) by lia. rewrite M2. reflexivity. }
  assert (C4 : cross 4 p (b_of B [13; 10]%N) true 0 = CMatch 2) by (rewrite <- C3; reflexivity).
  rewrite C4. reflexivity.
Qed.

Lemma cut_terminator : forall B a z m, whole (a ++ z) -> 12 <= B -> 1 <= List.length z <= 3 ->
  List.length a <= B -> B - List.length a < B / 4 ->
  serve B (two_reads a z m) (a ++ z) = Closed \/ exists i, serve B (two_reads a z m) (a ++ z) = Waiting i [].
Proof.
  intros B a z m W LB K L Sp.
  destruct (w_end _ W) as [t Et].
  assert (Lh : List.length a + List.length z = List.length t + 4).
  { rewrite <- app_length, Et, app_length. reflexivity. }
  destruct (app_cut _ _ _ _ _ (eq_sym Et)) as (x & Ea & Ex); [lia|]. subst a.
  assert (Big : 8 <= List.length (t ++ x)). { pose proof (Nat.div_mod B 4). lia. }
  rewrite app_length in Lh.
  assert (Na : t ++ x <> []) by (intros Z; rewrite Z in Big; cbn in Big; lia).
  assert (Nz : z <> []) by (intros Z; rewrite Z in K; cbn in K; lia).
  unfold two_reads.
  rewrite step_first by (auto; lia). rewrite step_second by (auto; lia).
  clear Et Na.
  rewrite fin_two by (auto; lia).
  destruct x as [|x1 [|x2 [|x3 [|x4 x]]]].
  - cbn in Lh, K. lia.
  - injection Ex as Ex. subst x1 z. right.
    destruct (search_1_3 B t) as [S0 S1]. { rewrite app_length in Big. cbn in Big. lia. }
    rewrite S0. eexists. apply wait_again; auto; cbn; lia.
  - injection Ex as Ex1 Ex. subst x1 x2 z. left.
    rewrite search_2_2. cbn [nth_error]. change (2 <? size (b_of B [13; 10]%N)) with false. cbv iota.
    unfold dissect. cbn [fixup]. rewrite !data_b_of. unfold start_in.
    replace (2 <? List.length (t ++ [13; 10]%N)) with true by lia.
    replace (List.length (t ++ [13; 10]%N) - 2) with (List.length t) by (rewrite app_length; cbn; lia).
    rewrite crlf_at_end. reflexivity.
  - injection Ex as Ex1 Ex2 Ex. subst x1 x2 x3 z. right.
    destruct (search_3_1 B t) as [S0 S1]. rewrite S0. eexists. apply wait_again; auto; cbn; lia.
  - exfalso. cbn in Lh, K. lia.
Qed.
