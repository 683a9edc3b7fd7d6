From Coq Require Import NArith ZArith List Bool String Lia ZifyBool ZifyNat ZifyN.
From Verif.Head Require Import Model Spec Proofs Proofs2.
Import ListNotations.
Local Open Scope string_scope.
Local Open Scope list_scope.
Local Open Scope nat_scope.

(** * A head as text *)

Lemma field_line_nonempty : forall n v ls, field n v ls -> Forall (fun l => l <> []) ls.
Proof.
  induction 1 as [n wr w1 w2 v Sm C SB EB W0 B1 B2 SV|n v ls w v2 F IH Ne B SV].
  - constructor; auto. destruct wr; [|discriminate]. destruct w1; discriminate.
  - apply Forall_app. split; auto. constructor; auto. destruct w; [contradiction|discriminate].
Qed.
Lemma fields_line_nonempty : forall hs ls, fields_of hs ls -> Forall (fun l => l <> []) ls.
Proof.
  induction 1 as [|n v ls hs rs F FS IH]; [constructor|]. apply Forall_app. split; auto.
  eapply field_line_nonempty; eauto.
Qed.

Definition started (m u p : bytes) : parsed := mkparsed (Some (m, u, p)) [] None false false false.
Lemma request_line_ok : forall m u p, ~ In 32%N m -> ~ In 32%N u ->
  request_line nothing_yet (m ++ 32%N :: u ++ 32%N :: p) = Done (started m u p).
Proof.
  intros m u p A B. unfold request_line. rewrite strchr_at by auto.
  rewrite skipn_exact_S, strchr_at by auto. rewrite !firstn_exact, skipn_exact_S. reflexivity.
Qed.
Lemma request_line_inv : forall l s, request_line nothing_yet l = Done s ->
  exists m u p, l = m ++ 32%N :: u ++ 32%N :: p /\ ~ In 32%N m /\ ~ In 32%N u /\ s = started m u p.
Proof.
  intros l s H. unfold request_line in H. destruct (strchr 32 l) as [k|] eqn:E; [|discriminate].
  apply strchr_some in E as (m & r & -> & <- & A). rewrite skipn_exact_S in H.
  destruct (strchr 32 r) as [j|] eqn:E; [|discriminate].
  apply strchr_some in E as (u & p & -> & <- & B). rewrite !firstn_exact, skipn_exact_S in H.
  exists m, u, p. repeat split; auto. injection H as <-. reflexivity.
Qed.

Lemma text_clean : forall ls, Forall clean ls -> clean (text ls).
Proof.
  unfold clean. induction 1 as [|l ls C F IH]; cbn; auto. rewrite in_app_iff. cbn.
  intros [H|[H|[H|H]]]; auto; discriminate.
Qed.

Lemma parse_text : forall l ls, Forall clean (l :: ls) -> one_line l -> Forall (fun l => one_line l /\ l <> []) ls ->
  parse_body (text (l :: ls)) = bind (bind (request_line nothing_yet l) (fun s => header_list s ls)) conclude.
Proof.
  intros l ls C O F. unfold parse_body. rewrite upto_nul_clean by (apply text_clean; exact C).
  rewrite loop_head; auto. cbn [text]. rewrite app_length. cbn [List.length]. pose proof (text_length ls). lia.
Qed.

Lemma parse_fields : forall m u p hs ls,
  ~ In 32%N m -> ~ In 32%N u -> fields_of hs ls -> lines_ok ((m ++ 32%N :: u ++ 32%N :: p) :: ls) ->
  parse_body (text ((m ++ 32%N :: u ++ 32%N :: p) :: ls)) = conclude (put_fields (started m u p) hs).
Proof.
  intros m u p hs ls A B F L. inversion L as [|? ? [C1 O1] L']; subst.
  rewrite parse_text; auto.
  - rewrite request_line_ok by auto. cbn [bind]. rewrite (fields_lines _ _ F). reflexivity.
  - constructor; auto. eapply Forall_impl; [|exact L']. cbn. tauto.
  - apply fields_line_nonempty in F. rewrite Forall_forall in *. intros x I. split; auto. apply L'. exact I.
Qed.
Lemma parse_fields_inv : forall l ls r, lines_ok (l :: ls) -> Forall (fun l => l <> []) ls ->
  parse_body (text (l :: ls)) = Done r ->
  exists m u p hs, l = m ++ 32%N :: u ++ 32%N :: p /\ ~ In 32%N m /\ ~ In 32%N u /\ fields_of hs ls.
Proof.
  intros l ls r L Ne H. inversion L as [|? ? [C1 O1] L']; subst. rewrite parse_text in H; auto.
  - destruct (request_line nothing_yet l) as [s| |] eqn:R; try discriminate.
    destruct (request_line_inv _ _ R) as (m & u & p & E & A & B & ->). cbn [bind] in H.
    destruct (header_list (started m u p) ls) as [s'| |] eqn:HL; try discriminate.
    destruct (header_list_inv ls (started m u p) s' eq_refl HL) as [hs F]. exists m, u, p, hs. auto.
  - constructor; auto. eapply Forall_impl; [|exact L']. cbn. tauto.
  - rewrite Forall_forall in *. intros x I. split; auto. apply L'. exact I.
Qed.

(** any text is the text of lines with a rest without line end *)
Lemma lines_exist : forall n t, List.length t <= n -> exists ls z, t = text ls ++ z /\ Forall one_line ls /\ one_line z.
Proof.
  induction n as [|n IH]; intros t L.
  - destruct t; [|cbn in L; lia]. exists [], []. repeat split; auto. intros [|? a] b; discriminate.
  - destruct (memmem CRLF t) as [k|] eqn:M.
    + destruct (memmem_some _ _ _ M) as (a & b & E & La & Min). cbn in E. subst t.
      rewrite app_length in L. cbn in L. destruct (IH b) as (ls & z & -> & F & O); [lia|].
      exists (a :: ls), z. cbn. rewrite <- app_assoc. repeat split; auto. constructor; auto.
      intros c d ->. specialize (Min c (d ++ 13%N :: 10%N :: text ls ++ z)). rewrite <- app_assoc in Min.
      specialize (Min eq_refl). rewrite app_length in La. cbn in La. lia.
    + exists [], t. repeat split; auto. exact (proj1 (memmem_none _ _) M).
Qed.

(** * Nothing undefined within one block *)

Lemma loop_not_bad : forall fuel s b l, List.length l < fuel -> (line1 s <> None -> b = true) ->
  lines_loop fuel s b l <> Bad /\
  forall s', lines_loop fuel s b l = Done s' -> line1 s' <> None.
Proof.
  induction fuel as [|fuel IH]; intros s b l L B; [lia|]. cbn [lines_loop].
  assert (Hn : forall l', snd (next_line l) = Some l' -> List.length l' < fuel).
  { unfold next_line. destruct (memmem CRLF l) as [k|] eqn:M; cbn [snd]; [|discriminate].
    intros l' E. injection E as <-.
    destruct (memmem_some _ _ _ M) as (a & c & E & La & _). rewrite skipn_length.
    assert (List.length l = List.length a + 2 + List.length c) by (rewrite E, !app_length; cbn; lia). lia. }
  destruct (next_line l) as [line next]. cbn [snd] in Hn.
  assert (K : forall s1, line1 s1 <> None ->
    (match next with None => Done s1 | Some l => lines_loop fuel s1 true l end) <> Bad /\
    forall s', (match next with None => Done s1 | Some l => lines_loop fuel s1 true l end) = Done s' -> line1 s' <> None).
  { intros s1 N1. destruct next as [l'|].
    - apply IH; auto.
    - split; [discriminate|]. intros s' E. injection E as <-. exact N1. }
  destruct (line1 s) as [x|] eqn:L1.
  - destruct line as [|c line].
    + split; [discriminate|]. intros s' E. injection E as <-. congruence.
    + rewrite B by discriminate. destruct (header_line s true (c :: line)) as [s1| |] eqn:H; cbn [bind].
      * apply K. rewrite (header_line_line1 _ _ _ _ H). congruence.
      * split; discriminate.
      * exfalso. unfold header_line in H. destruct (extract_header (c :: line)) as [[[n|] v]|]; try discriminate.
        { destruct n; discriminate. }
        destruct (last_name s); [|discriminate]. destruct (hget _ _); discriminate.
  - assert (R : (match line with [] => bind (request_line s line) (fun s0 =>
         match next with None => Done s0 | Some l0 => lines_loop fuel s0 true l0 end)
         | _ :: _ => bind (request_line s line) (fun s0 =>
         match next with None => Done s0 | Some l0 => lines_loop fuel s0 true l0 end) end)
         = bind (request_line s line) (fun s0 => match next with None => Done s0 | Some l0 => lines_loop fuel s0 true l0 end))
      by (destruct line; reflexivity).
    destruct (request_line s line) as [s1| |] eqn:H; cbn [bind] in *.
    + apply K. destruct (request_line_line1 _ _ _ H) as [x X]. congruence.
    + split; discriminate.
    + exfalso. unfold request_line in H. destruct (strchr 32 line); [|discriminate].
      destruct (strchr 32 _); discriminate.
Qed.
Lemma parse_not_bad : forall t, parse_body t <> Bad.
Proof.
  intros t. unfold parse_body.
  destruct (loop_not_bad (S (List.length (upto_nul t))) nothing_yet false (upto_nul t)) as [A B]; [lia|intro X; exfalso; apply X; reflexivity|].
  destruct (lines_loop _ _ _ _) as [s| |]; cbn [bind]; try discriminate; [|contradiction].
  specialize (B s eq_refl). unfold conclude. destruct (line1 s) as [[[m u] p]|]; [|contradiction].
  destruct (hget (headers s) (bs "expect")); [|discriminate]. destruct (negb _ || _)%bool; discriminate.
Qed.

(** * The end of the head in the first block *)

Lemma crlfs_length : forall n, List.length (crlfs n) = 2 * n.
Proof. induction n; cbn; lia. Qed.
Lemma crlfs_app : forall n m, crlfs (n + m) = crlfs n ++ crlfs m.
Proof. induction n; intro m; cbn; auto. rewrite IHn. reflexivity. Qed.

Lemma front_crlf_short : forall d, front CRLF d = true -> 2 <= List.length d.
Proof. intros d H. apply front_iff in H as [r ->]. cbn. lia. Qed.
Lemma eat_crlfs : forall j fuel pre d a, front CRLF d = false -> j < fuel ->
  eat fuel (mkblk (pre ++ crlfs j ++ d) (List.length pre) (List.length (crlfs j ++ d)) a)
  = mkblk (pre ++ crlfs j ++ d) (List.length (pre ++ crlfs j)) (List.length d) a.
Proof.
  induction j as [|j IH]; intros fuel pre d a F L; (destruct fuel as [|fuel]; [lia|]); cbn [eat].
  - pose proof (data_mid pre d [] a) as D. rewrite app_nil_r in D. cbn [crlfs app]. rewrite D, F, andb_false_r.
    rewrite app_nil_r. reflexivity.
  - pose proof (data_mid pre (crlfs (S j) ++ d) [] a) as D. rewrite app_nil_r in D. rewrite D.
    cbn [crlfs app]. change (front CRLF (13%N :: 10%N :: crlfs j ++ d)) with true. cbn [size List.length].
    replace (2 <=? S (S (List.length (crlfs j ++ d)))) with true by lia. cbn [andb mem start size allocd].
    replace (List.length pre + 2) with (List.length (pre ++ [13%N; 10%N])) by (rewrite app_length; reflexivity).
    replace (S (S (List.length (crlfs j ++ d))) - 2) with (List.length (crlfs j ++ d)) by lia.
    replace (pre ++ 13%N :: 10%N :: crlfs j ++ d) with ((pre ++ [13%N; 10%N]) ++ crlfs j ++ d)
      by (rewrite <- app_assoc; reflexivity).
    rewrite IH by (auto; lia). f_equal. rewrite !app_length. cbn. lia.
Qed.

(** a head ends with its first empty line and does not begin with one *)
Record whole (h : bytes) : Prop := mkwhole {
  w_end : exists t, h = t ++ REQ_PAT;
  w_first : forall a b, h = a ++ REQ_PAT ++ b -> b = [];
  w_start : front CRLF h = false }.

Lemma whole_in : forall h more, whole h -> memmem REQ_PAT (h ++ more) = Some (List.length h - 4).
Proof.
  intros h more W. destruct (w_end _ W) as [t E].
  destruct (memmem REQ_PAT (h ++ more)) as [k|] eqn:M.
  - destruct (memmem_some _ _ _ M) as (a & b & Eh & La & Min). f_equal.
    assert (k <= List.length t) by (apply Min with more; rewrite E, <- app_assoc; reflexivity).
    assert (List.length h = List.length t + 4) by (rewrite E, app_length; reflexivity).
    assert (List.length (a ++ REQ_PAT) <= List.length h) by (rewrite app_length; cbn; lia).
    rewrite app_assoc in Eh. symmetry in Eh. destruct (app_cut _ _ _ _ _ Eh) as (m & Em & _); auto.
    rewrite <- app_assoc in Em. pose proof (w_first _ W _ _ Em) as ->. 
    rewrite Em, app_length in *. cbn in *. lia.
  - exfalso. apply (proj1 (memmem_none _ _) M t more). rewrite E, <- app_assoc. reflexivity.
Qed.
Lemma whole_prefix : forall h d x, whole h -> h = d ++ x -> x <> [] -> memmem REQ_PAT d = None /\ front CRLF d = false.
Proof.
  intros h d x W E N. split.
  - apply memmem_none. intros a b X. subst d. apply N. rewrite <- !app_assoc in E.
    apply (w_first _ W) in E. destruct b; [exact E|discriminate].
  - destruct (front CRLF d) eqn:F; auto. apply front_iff in F as [r ->].
    assert (front CRLF h = true) by (apply front_iff; exists (r ++ x); rewrite E, <- app_assoc; reflexivity).
    rewrite (w_start _ W) in H. discriminate.
Qed.
Lemma whole_start : forall h more, whole h -> front CRLF (h ++ more) = false.
Proof.
  intros h more W. destruct (front CRLF (h ++ more)) eqn:F; auto. apply front_iff in F as [r E].
  destruct (w_end _ W) as [t Et].
  assert (2 <= List.length h) by (rewrite Et, app_length; cbn; lia).
  symmetry in E. destruct (app_cut _ _ _ _ _ E) as (m & -> & _); [exact H|].
  pose proof (w_start _ W) as X. assert (front CRLF (CRLF ++ m) = true) by (apply front_iff; eauto). congruence.
Qed.
Lemma whole_text : forall h, whole h -> exists t, h = t ++ [13%N; 10%N] /\ t <> [] /\ exists t', t = t' ++ [13%N; 10%N].
Proof.
  intros h W. destruct (w_end _ W) as [t E]. exists (t ++ [13%N; 10%N]). rewrite <- app_assoc. repeat split; auto.
  - destruct t; discriminate. - eauto.
Qed.

(** what the server makes of a head *)
Definition head_result (h : bytes) : res request := parse_body (firstn (List.length h - 2) h).

Lemma fin_whole : forall B n h more a, whole h ->
  finalize B (mkinput [mkblk (crlfs n ++ h ++ more) (2 * n) (List.length (h ++ more)) a] 0 0)
  = bind (head_result h) (fun r => Done (Complete r (match more with [] => [] | _ => [mkblk more 0 (List.length more) (List.length more)] end))).
Proof.
  intros B n h more a W. unfold finalize. cbn [cur blocks Nat.eqb eat_crlf size].
  assert (Ea : eat (List.length (h ++ more)) (mkblk (crlfs n ++ h ++ more) (2 * n) (List.length (h ++ more)) a)
               = mkblk (crlfs n ++ h ++ more) (2 * n) (List.length (h ++ more)) a).
  { pose proof (eat_crlfs 0 (List.length (h ++ more)) (crlfs n) (h ++ more) a (whole_start _ _ W)) as X.
    cbn [crlfs app] in X. rewrite app_nil_r, crlfs_length in X. apply X.
    destruct (w_end _ W) as [t ->]. rewrite !app_length. cbn. lia. }
  rewrite Ea. cbn [skipn search off].
  assert (Dd : data (mkblk (crlfs n ++ h ++ more) (2 * n) (List.length (h ++ more)) a) = h ++ more).
  { pose proof (data_mid (crlfs n) (h ++ more) [] a) as X. rewrite app_nil_r, crlfs_length in X. exact X. }
  rewrite Dd. change (0 - REQ_PATSIZE) with 0. cbn [skipn]. rewrite whole_in by auto. cbn [nth_error size].
  assert (Lh : 4 <= List.length h) by (destruct (w_end _ W) as [t ->]; rewrite app_length; cbn; lia).
  replace (0 + (List.length h - 4) + REQ_PATSIZE) with (List.length h) by (unfold REQ_PATSIZE; lia).
  destruct (whole_text _ W) as (t & E & Ne & _).
  assert (HR : head_result h = parse_body t).
  { unfold head_result. rewrite E. replace (List.length (t ++ [13%N; 10%N]) - 2) with (List.length t)
      by (rewrite app_length; cbn; lia). rewrite firstn_exact. reflexivity. }
  pose proof (fun b => dissect_one B (crlfs n) t more b Ne) as D. rewrite <- E, <- HR, crlfs_length in D.
  destruct (List.length h <? List.length (h ++ more)) eqn:Lt.
  - rewrite Dd, skipn_exact. cbn [List.length Nat.eqb firstn app mem start allocd].
    rewrite app_length in *. replace (List.length h + List.length more - List.length h) with (List.length more) by lia.
    rewrite D. apply Nat.ltb_lt in Lt. destruct more; [rewrite ?app_length in Lt; cbn [List.length] in Lt; lia|]. reflexivity.
  - destruct more as [|c more]. 2:{ apply Nat.ltb_ge in Lt. rewrite app_length in Lt. cbn [List.length] in Lt. lia. }
    rewrite app_nil_r in *. rewrite D. destruct (head_result h); reflexivity.
Qed.
