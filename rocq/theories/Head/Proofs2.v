From Coq Require Import NArith ZArith List Bool String Lia ZifyBool ZifyNat ZifyN.
From Verif.Head Require Import Model Spec Proofs.
Import ListNotations.
Local Open Scope string_scope.
Local Open Scope list_scope.
Local Open Scope nat_scope.

(** * Lines *)

Lemma app_cut : forall (A : Type) (a b c d : list A), a ++ b = c ++ d -> List.length a <= List.length c ->
  exists m, c = a ++ m /\ b = m ++ d.
Proof.
  intros A. induction a as [|x a IH]; intros b c d E L.
  - exists c. auto.
  - destruct c as [|y c]; cbn in *; [lia|]. injection E as <- E.
    destruct (IH _ _ _ E) as (m & -> & ->); [lia|]. exists m. auto.
Qed.
Lemma crlf_position : forall l t a b, one_line l -> l ++ 13%N :: 10%N :: t = a ++ 13%N :: 10%N :: b ->
  List.length l <= List.length a.
Proof.
  intros l t a b O E. destruct (Nat.le_gt_cases (List.length l) (List.length a)) as [H|H]; auto. exfalso.
  symmetry in E. destruct (app_cut _ _ _ _ _ E) as (m & -> & E2); [lia|].
  destruct m as [|x m]. { rewrite app_nil_r in H. lia. }
  destruct m as [|y m]; cbn in E2.
  - injection E2 as <- X. discriminate.
  - injection E2 as <- <- X. exact (O a m eq_refl).
Qed.
Lemma memmem_line : forall l t, one_line l -> memmem CRLF (l ++ 13%N :: 10%N :: t) = Some (List.length l).
Proof.
  intros l t O. destruct (memmem CRLF (l ++ 13%N :: 10%N :: t)) as [k|] eqn:M.
  - destruct (memmem_some _ _ _ M) as (a & b & E & L & Min). f_equal.
    pose proof (crlf_position _ _ _ _ O E). specialize (Min l t eq_refl). lia.
  - exfalso. exact (proj1 (memmem_none _ _) M l t eq_refl).
Qed.
Lemma memmem_one : forall l, one_line l -> memmem CRLF l = None.
Proof. intros l O. apply memmem_none. exact O. Qed.

Lemma skip_line : forall (l t : bytes), skipn (List.length l + 2) (l ++ 13%N :: 10%N :: t) = t.
Proof.
  intros. replace (l ++ 13%N :: 10%N :: t) with ((l ++ [13%N; 10%N]) ++ t) by (rewrite <- app_assoc; reflexivity).
  replace (List.length l + 2) with (List.length (l ++ [13%N; 10%N])) by (rewrite app_length; reflexivity).
  apply skipn_exact.
Qed.

Fixpoint header_list (s : parsed) (ls : list bytes) : res parsed :=
  match ls with
  | [] => Done s
  | l :: r => bind (header_line s true l) (fun s => header_list s r)
  end.

Lemma accept_line1 : forall s n v, line1 (accept s n v) = line1 s.
Proof. intros. unfold accept. destruct (beq n _); reflexivity. Qed.
Lemma header_line_line1 : forall s b l s', header_line s b l = Done s' -> line1 s' = line1 s.
Proof.
  intros s b l s'. unfold header_line. destruct (extract_header l) as [[[n|] v]|]; [| |discriminate].
  - destruct (match n with [] => negb b | _ => false end); [discriminate|].
    intro E. injection E as <-. cbn. apply accept_line1.
  - destruct (last_name s); [|discriminate]. destruct (hget _ _); [|discriminate].
    intro E. injection E as <-. cbn. apply accept_line1.
Qed.

Lemma text_length : forall ls, List.length ls <= List.length (text ls).
Proof. induction ls as [|l r IH]; cbn; auto. rewrite app_length. cbn. lia. Qed.

Lemma loop_headers : forall ls fuel s x, line1 s = Some x -> Forall (fun l => one_line l /\ l <> []) ls ->
  List.length ls < fuel -> lines_loop fuel s true (text ls) = header_list s ls.
Proof.
  induction ls as [|l r IH]; intros fuel s x L F Lf; (destruct fuel as [|fuel]; [cbn in Lf; lia|]).
  - cbn. rewrite L. reflexivity.
  - inversion F as [|? ? [O Ne] F']; subst. cbn [lines_loop text]. unfold next_line.
    rewrite memmem_line by auto. rewrite firstn_exact, skip_line, L. cbn [header_list].
    destruct l as [|c l]; [contradiction|].
    destruct (header_line s true (c :: l)) as [s'| |] eqn:H; cbn [bind]; auto.
    eapply IH; eauto. + erewrite header_line_line1; eauto. + cbn in Lf. lia.
Qed.
Lemma request_line_line1 : forall s l s', request_line s l = Done s' -> exists x, line1 s' = Some x.
Proof.
  intros s l s'. unfold request_line. destruct (strchr 32 l); [|discriminate].
  destruct (strchr 32 _); [|discriminate]. intro E. injection E as <-. eexists. reflexivity.
Qed.
Lemma loop_head : forall l ls fuel b, one_line l -> Forall (fun l => one_line l /\ l <> []) ls ->
  S (List.length ls) < fuel ->
  lines_loop fuel nothing_yet b (text (l :: ls)) = bind (request_line nothing_yet l) (fun s => header_list s ls).
Proof.
  intros l ls fuel b O F Lf. destruct fuel as [|fuel]; [lia|]. cbn [lines_loop text]. unfold next_line.
  rewrite memmem_line by auto. rewrite firstn_exact, skip_line. cbn [nothing_yet line1].
  destruct (request_line _ l) as [s| |] eqn:R; cbn [bind]; auto.
  destruct (request_line_line1 _ _ _ R) as [x X]. eapply loop_headers; eauto. lia.
Qed.

(** * One block *)

Lemma cstr_nul : forall l r, cstr (l ++ 0%N :: r) = Some (upto_nul l).
Proof.
  induction l as [|x l IH]; intro r; cbn [cstr app upto_nul]; auto.
  destruct (N.eqb x 0); auto. rewrite IH. reflexivity.
Qed.

(** what a head that is in one block comes to *)
Definition parse_body (t : bytes) : res request :=
  bind (lines_loop (S (List.length (upto_nul t))) nothing_yet false (upto_nul t)) conclude.

Lemma loop_before : forall fuel b b' l, lines_loop fuel nothing_yet b l = lines_loop fuel nothing_yet b' l.
Proof. intros [|fuel] b b' l; reflexivity. Qed.

Lemma data_mid : forall pre h more a, data (mkblk (pre ++ h ++ more) (List.length pre) (List.length h) a) = h.
Proof. intros. unfold data. cbn. rewrite skipn_exact, firstn_exact. reflexivity. Qed.

Lemma crlf_at_end : forall t, crlf_at (t ++ [13%N; 10%N]) (List.length t) = true.
Proof. intros. unfold crlf_at. rewrite skipn_exact. reflexivity. Qed.

Lemma dissect_one : forall B pre t more a, t <> [] ->
  dissect B [mkblk (pre ++ (t ++ [13%N; 10%N]) ++ more) (List.length pre) (List.length (t ++ [13%N; 10%N])) a] = parse_body t.
Proof.
  intros B pre t more a Ne. unfold dissect. cbn [fixup]. rewrite data_mid. unfold start_in.
  replace (2 <? List.length (t ++ [13%N; 10%N])) with true
    by (rewrite app_length; cbn [List.length]; destruct t; [contradiction|cbn [List.length]; lia]).
  replace (List.length (t ++ [13%N; 10%N]) - 2) with (List.length t) by (rewrite app_length; cbn [List.length]; lia).
  rewrite crlf_at_end. cbn [bind chain_lines]. unfold block_lines. cbn [start size mem].
  rewrite !app_length. cbn [List.length].
  replace (List.length pre + (List.length t + 2) <? 2) with false by lia.
  replace (List.length pre + (List.length t + 2) - 2) with (List.length pre + List.length t) by lia.
  replace (List.length pre + (List.length t + 2 + List.length more) <=? List.length pre + List.length t) with false by lia.
  assert (E : pre ++ (t ++ [13%N; 10%N]) ++ more = (pre ++ t) ++ 13%N :: 10%N :: more)
    by (rewrite <- !app_assoc; reflexivity).
  rewrite E. replace (List.length pre + List.length t) with (List.length (pre ++ t)) by apply app_length.
  rewrite firstn_exact, skipn_exact_S, <- app_assoc, skipn_exact, cstr_nul.
  unfold parse_body. rewrite (loop_before _ (0 <? List.length pre) false).
  destruct (lines_loop _ _ _ _); reflexivity.
Qed.

(** * Header fields *)

Lemma ws_iff : forall c, ws c = true <-> c = 32%N \/ c = 9%N.
Proof. intro c. unfold ws. lia. Qed.
Lemma skip_ws_blanks : forall w v, blanks w -> ~ starts_blank v -> skip_ws (w ++ v) = v.
Proof.
  induction w as [|c w IH]; intros v B S; cbn [app skip_ws].
  - destruct v as [|c v]; auto. cbn. destruct (ws c) eqn:W; auto.
    exfalso. apply S. exists c, v. split; auto. apply ws_iff. exact W.
  - inversion B; subst. rewrite (proj2 (ws_iff c)) by auto. apply IH; auto.
Qed.
Lemma skip_ws_split : forall l, exists w, l = w ++ skip_ws l /\ blanks w /\ ~ starts_blank (skip_ws l).
Proof.
  induction l as [|c l IH].
  - exists []. repeat split; [constructor|]. intros (c & r & E & _). discriminate.
  - cbn [skip_ws]. destruct (ws c) eqn:W.
    + destruct IH as (w & E & B & S). exists (c :: w). repeat split; auto.
      * cbn. congruence. * constructor; auto. apply ws_iff. exact W.
    + exists []. repeat split; [constructor|]. intros (c' & r & E & X). injection E as <- <-.
      apply ws_iff in X. congruence.
Qed.
Lemma lower_ws : forall c, ws (lower c) = ws c.
Proof. intro c. unfold ws, lower. destruct ((65 <=? c)%N && (c <=? 90)%N)%bool eqn:X; lia. Qed.
Lemma small_lower : forall c d, small c d <-> c = lower d.
Proof. intros c d. unfold small, lower. destruct ((65 <=? d)%N && (d <=? 90)%N)%bool eqn:X; lia. Qed.
Lemma small_map : forall a b, Forall2 small a b <-> a = map lower b.
Proof.
  intros a b. split.
  - induction 1 as [|x y a b S F IH]; auto. cbn. apply small_lower in S. congruence.
  - intros ->. induction b as [|y b IH]; cbn; constructor; auto. apply small_lower. reflexivity.
Qed.
Lemma rtrim_blank : forall w, blanks w -> rtrim w = [].
Proof.
  induction 1 as [|c w B F IH]; auto. cbn [rtrim]. rewrite IH, (proj2 (ws_iff c)) by auto. reflexivity.
Qed.
Lemma rtrim_app : forall l w, blanks w -> rtrim (l ++ w) = rtrim l.
Proof.
  induction l as [|c l IH]; intros w B; cbn [app rtrim]. { apply rtrim_blank. exact B. }
  rewrite IH by exact B. reflexivity.
Qed.
Lemma rtrim_id : forall l, ~ ends_blank l -> rtrim l = l.
Proof.
  induction l as [|c l IH]; intro E; auto. cbn [rtrim]. destruct l as [|d l].
  - cbn. destruct (ws c) eqn:W; auto. exfalso. apply E. exists c, []. split; auto. apply ws_iff. exact W.
  - rewrite IH; auto. intros (x & r & X & Y). apply E. exists x, (c :: r). split; auto. rewrite X. reflexivity.
Qed.
Lemma rtrim_split : forall l, exists w, l = rtrim l ++ w /\ blanks w /\ ~ ends_blank (rtrim l).
Proof.
  induction l as [|c l (w & E & B & N)].
  - exists []. repeat split; [constructor|]. intros (c & r & X & _). destruct r; discriminate.
  - cbn [rtrim]. destruct (rtrim l) as [|d r] eqn:R.
    + destruct (ws c) eqn:W.
      * exists (c :: w). cbn in E. subst l. repeat split.
        -- constructor; auto. apply ws_iff. exact W.
        -- intros (x & r & X & _). destruct r; discriminate.
      * exists w. cbn in E. subst l. repeat split; auto.
        intros (x & r & X & Y). destruct r as [|? r]; [|destruct r; discriminate]. injection X as ->.
        apply ws_iff in Y. congruence.
    + exists w. repeat split; auto. { rewrite E at 1. reflexivity. }
      intros (x & r' & X & Y). destruct r' as [|? r']; [discriminate|]. injection X as -> X.
      apply N. exists x, r'. auto.
Qed.
Lemma rtrim_map : forall l, rtrim (map lower l) = map lower (rtrim l).
Proof.
  induction l as [|c l IH]; auto. cbn [rtrim map]. rewrite IH, lower_ws.
  destruct (rtrim l); cbn; [destruct (ws c)|]; reflexivity.
Qed.

Lemma extract_line : forall name written w1 w2 v,
  Forall2 small name written -> ~ In 58%N written -> ~ starts_blank written -> ~ ends_blank written ->
  (written = [] -> w1 = []) -> blanks w1 -> blanks w2 -> ~ starts_blank v ->
  extract_header (written ++ w1 ++ 58%N :: w2 ++ v) = Some (Some name, v).
Proof.
  intros name written w1 w2 v Sm C SB EB W0 B1 B2 SV.
  assert (X : strchr 58 (written ++ w1 ++ 58%N :: w2 ++ v) = Some (List.length (written ++ w1))).
  { rewrite app_assoc. apply strchr_at. rewrite in_app_iff. intros [I|I]; auto.
    apply (proj1 (Forall_forall _ _) B1) in I. destruct I; discriminate. }
  assert (Y : extract_header (written ++ w1 ++ 58%N :: w2 ++ v)
    = Some (Some (rtrim (map lower (firstn (List.length (written ++ w1)) (written ++ w1 ++ 58%N :: w2 ++ v)))),
            skip_ws (skipn (S (List.length (written ++ w1))) (written ++ w1 ++ 58%N :: w2 ++ v)))).
  { unfold extract_header. rewrite X. destruct written as [|c r].
    - rewrite W0 by reflexivity. reflexivity.
    - cbn [app]. destruct (ws c) eqn:W; auto. exfalso. apply SB. exists c, r. split; auto. apply ws_iff. exact W. }
  rewrite Y. rewrite app_assoc, firstn_exact, skipn_exact_S, skip_ws_blanks by auto.
  rewrite rtrim_map, rtrim_app, rtrim_id by auto. apply small_map in Sm. rewrite Sm. reflexivity.
Qed.
Lemma extract_fold : forall w v, w <> [] -> blanks w -> ~ starts_blank v ->
  extract_header (w ++ v) = Some (None, v).
Proof.
  intros w v Ne B S. destruct w as [|c w]; [contradiction|]. unfold extract_header. cbn [app].
  inversion B; subst. rewrite (proj2 (ws_iff c)) by auto.
  change (c :: w ++ v) with ((c :: w) ++ v). rewrite skip_ws_blanks; auto.
Qed.
Lemma extract_inv : forall l o v, extract_header l = Some (o, v) ->
  match o with
  | Some n => field n v [l]
  | None => exists w, l = w ++ v /\ w <> [] /\ blanks w /\ ~ starts_blank v
  end.
Proof.
  intros [|c l] o v; [discriminate|]. unfold extract_header. destruct (ws c) eqn:W.
  - intro E. injection E as <- <-.
    destruct (skip_ws_split (c :: l)) as (w & E & B & S). cbn [skip_ws] in *. rewrite W in *.
    exists w. repeat split; auto. intros ->. apply S. exists c, l. split; auto. apply ws_iff. exact W.
  - destruct (strchr 58 (c :: l)) as [k|] eqn:X; [|discriminate].
    apply strchr_some in X as (a & b & E & <- & N). rewrite E. rewrite firstn_exact, skipn_exact_S.
    rewrite rtrim_map. intro X. inversion X; subst o v; clear X. destruct (rtrim_split a) as (w1 & Ea & B1 & EB).
    destruct (skip_ws_split b) as (w2 & Eb & B2 & S).
    assert (Sa : ~ starts_blank a).
    { intros (d & r & X & Y). subst a. injection E as -> _. apply ws_iff in Y. congruence. }
    replace (a ++ 58%N :: b) with (rtrim a ++ w1 ++ 58%N :: w2 ++ skip_ws b)
      by (rewrite app_assoc, <- Ea, <- Eb; reflexivity).
    apply field_line; auto.
    + apply small_map. reflexivity.
    + intro I. apply N. rewrite Ea. apply in_app_iff. auto.
    + intros (d & r & X & Y). apply Sa. exists d, (r ++ w1). split; auto. rewrite Ea, X. reflexivity.
    + intro X. rewrite X in Ea. cbn in Ea. destruct w1 as [|d w1]; auto. exfalso. apply Sa.
      exists d, w1. split; auto. inversion B1; auto.
Qed.

(** * The state after headers *)

Definition contains_iff : forall v n, contains v n = true <-> within n v.
Proof.
  intros v n. unfold contains, within. destruct (memmem n v) as [k|] eqn:M.
  - split; auto. intros _. apply memmem_some in M as (a & b & -> & _). eauto.
  - split; [discriminate|]. intros (a & b & E). exfalso. exact (proj1 (memmem_none _ _) M _ _ E).
Qed.
Lemma within_split : forall n v v2, ~ In 32%N n ->
  (within n (v ++ 32%N :: v2) <-> within n v \/ within n v2).
Proof.
  intros n v v2 S. split.
  - intros (a & b & E). destruct (Nat.le_gt_cases (List.length v + 1) (List.length a)) as [H|H].
    + right. replace (v ++ 32%N :: v2) with ((v ++ [32%N]) ++ v2) in E by (rewrite <- app_assoc; reflexivity).
      destruct (app_cut _ _ _ _ _ E) as (m & -> & ->). { rewrite app_length. cbn. lia. }
      exists m, b. reflexivity.
    + left. symmetry in E. destruct (app_cut _ _ _ _ _ E) as (m & -> & E2); [lia|].
      destruct (Nat.le_gt_cases (List.length n) (List.length m)) as [L|L].
      * destruct (app_cut _ _ _ _ _ E2) as (m2 & -> & _); auto. exists a, m2. reflexivity.
      * exfalso. symmetry in E2. destruct (app_cut _ _ _ _ _ E2) as (m2 & -> & E3); [lia|].
        destruct m2 as [|x m2]. { rewrite app_nil_r in L. lia. }
        injection E3 as <- _. apply S. apply in_app_iff. right. left. reflexivity.
  - intros [(a & b & ->)|(a & b & ->)].
    + exists a, (b ++ 32%N :: v2). rewrite <- !app_assoc. reflexivity.
    + exists (v ++ 32%N :: a), b. rewrite <- app_assoc. reflexivity.
Qed.
Lemma contains_split : forall n v v2, ~ In 32%N n -> contains (v ++ 32%N :: v2) n = (contains v n || contains v2 n)%bool.
Proof.
  intros n v v2 S. apply eq_true_iff_eq. rewrite orb_true_iff, !contains_iff. apply within_split. exact S.
Qed.

Definition put_field (s : parsed) (n v : bytes) : parsed :=
  let s := accept s n v in
  mkparsed (line1 s) (hset (headers s) n v) (Some n) (gzip s) (deflate s) (lz4f s).

Lemma hset_hset : forall t n v v2, hset (hset t n v) n v2 = hset t n v2.
Proof.
  induction t as [|[k x] t IH]; intros n v v2; cbn [hset].
  - cbn. rewrite beq_refl. reflexivity.
  - destruct (beq k n) eqn:B; cbn [hset]; rewrite B; auto. rewrite IH. reflexivity.
Qed.
Lemma hget_hset : forall t n v k, hget (hset t n v) k = if beq n k then Some v else hget t k.
Proof.
  induction t as [|[k' x] t IH]; intros n v k; cbn [hset hget]; auto.
  destruct (beq k' n) eqn:B; cbn [hget].
  - apply beq_eq in B as ->. destruct (beq n k); auto.
  - rewrite IH. destruct (beq k' k) eqn:C; auto. apply beq_eq in C as ->.
    destruct (beq n k) eqn:D; auto. apply beq_eq in D as ->. rewrite beq_refl in B. discriminate.
Qed.

Lemma header_list_app : forall a b s, header_list s (a ++ b) = bind (header_list s a) (fun s => header_list s b).
Proof.
  induction a as [|l a IH]; intros b s; cbn [app header_list]; auto.
  destruct (header_line s true l); cbn [bind]; auto.
Qed.

Lemma orb3 : forall a b c : bool, ((a || b) || c)%bool = (a || (b || c))%bool.
Proof. intros. symmetry. apply orb_assoc. Qed.
Lemma put_fold : forall s n v v2, 
  (let s' := accept (put_field s n v) n v2 in
   mkparsed (line1 s') (hset (headers s') n (v ++ 32%N :: v2)) (last_name s') (gzip s') (deflate s') (lz4f s'))
  = put_field s n (v ++ 32%N :: v2).
Proof.
  intros s n v v2. unfold put_field, accept. destruct (beq n (bs "accept-encoding")) eqn:A;
    cbn [line1 headers last_name gzip deflate lz4f]; rewrite hset_hset; auto.
  rewrite !contains_split by (cbv; intuition discriminate). rewrite !orb_assoc. reflexivity.
Qed.
Lemma headers_accept : forall s n v, headers (accept s n v) = headers s.
Proof. intros. unfold accept. destruct (beq n _); reflexivity. Qed.
Lemma last_name_accept : forall s n v, last_name (accept s n v) = last_name s.
Proof. intros. unfold accept. destruct (beq n _); reflexivity. Qed.

Lemma field_lines : forall n v ls, field n v ls -> forall s, header_list s ls = Done (put_field s n v).
Proof.
  induction 1 as [n wr w1 w2 v Sm C SB EB W0 B1 B2 SV|n v ls w v2 F IH Ne B SV]; intro s.
  - cbn [header_list]. unfold header_line. rewrite (extract_line n) by auto.
    destruct n; reflexivity.
  - rewrite header_list_app, IH. cbn [bind header_list]. unfold header_line. rewrite extract_fold by auto.
    change (last_name (put_field s n v)) with (Some n). cbv beta iota.
    assert (H : headers (accept (put_field s n v) n v2) = hset (headers s) n v).
    { rewrite headers_accept. unfold put_field. cbn [headers]. rewrite headers_accept. reflexivity. }
    rewrite H, hget_hset, beq_refl. cbn [bind]. f_equal. rewrite <- (put_fold s n v v2). cbn zeta.
    rewrite H. reflexivity.
Qed.
Definition put_fields (s : parsed) (hs : list (bytes * bytes)) : parsed :=
  fold_left (fun s h => put_field s (fst h) (snd h)) hs s.
Lemma fields_lines : forall hs ls, fields_of hs ls -> forall s, header_list s ls = Done (put_fields s hs).
Proof.
  induction 1 as [|n v ls hs rs F FS IH]; intro s; auto.
  rewrite header_list_app, (field_lines _ _ _ F). cbn [bind]. rewrite IH. reflexivity.
Qed.

Lemma field_nonempty : forall n v ls, field n v ls -> ls <> [].
Proof. destruct 1; [discriminate|]. destruct ls; discriminate. Qed.
Lemma fields_snoc : forall hs rs n v ls, fields_of hs rs -> field n v ls -> fields_of (hs ++ [(n, v)]) (rs ++ ls).
Proof.
  induction 1 as [|n' v' ls' hs rs F FS IH]; intro G.
  - cbn. rewrite <- (app_nil_r ls). constructor; auto. constructor.
  - cbn. rewrite <- app_assoc. constructor; auto.
Qed.
Lemma fields_last : forall hs ls, fields_of hs ls -> hs = [] /\ ls = [] \/
  exists hs' n v ls' lf, hs = hs' ++ [(n, v)] /\ ls = ls' ++ lf /\ fields_of hs' ls' /\ field n v lf.
Proof.
  induction 1 as [|n v ls hs rs F FS IH]; auto. right. destruct IH as [[-> ->]|(hs' & n' & v' & ls' & lf & -> & -> & A & B)].
  - exists [], n, v, [], ls. rewrite app_nil_r. repeat split; auto.
  - exists ((n, v) :: hs'), n', v', (ls ++ ls'), lf. rewrite <- app_assoc. repeat split; auto. constructor; auto.
Qed.
Lemma put_fields_snoc : forall s hs n v, put_fields s (hs ++ [(n, v)]) = put_field (put_fields s hs) n v.
Proof. intros. unfold put_fields. rewrite fold_left_app. reflexivity. Qed.

Lemma header_list_inv : forall ls s s', last_name s = None -> header_list s ls = Done s' ->
  exists hs, fields_of hs ls.
Proof.
  induction ls as [|l ls IH] using rev_ind; intros s s' L H.
  - exists []. constructor.
  - rewrite header_list_app in H. destruct (header_list s ls) as [s1| |] eqn:H1; try discriminate.
    destruct (IH _ _ L H1) as [hs FS]. cbn [bind header_list] in H.
    destruct (header_line s1 true l) as [s2| |] eqn:H2; try discriminate. clear H.
    unfold header_line in H2. destruct (extract_header l) as [[[n|] v]|] eqn:E; [| |discriminate].
    + apply extract_inv in E. exists (hs ++ [(n, v)]). apply fields_snoc; auto.
    + apply extract_inv in E. cbn in E. destruct E as (w & -> & Ne & B & S).
      destruct (fields_last _ _ FS) as [[-> ->]|(hs' & n' & v' & ls' & lf & -> & -> & FS' & F)].
      * cbn in H1. injection H1 as <-. rewrite L in H2. discriminate.
      * exists (hs' ++ [(n', v' ++ 32%N :: v)]). rewrite <- app_assoc. apply fields_snoc; auto.
        apply field_fold; auto.
Qed.

(** the table and the flags after the headers *)
Lemma put_fields_get : forall hs s k, hget (headers (put_fields s hs)) k =
  fold_left (fun o h => if beq (fst h) k then Some (snd h) else o) hs (hget (headers s) k).
Proof.
  induction hs as [|[n v] hs IH]; intros s k; auto. cbn [put_fields fold_left].
  change (fold_left _ hs (put_field s (fst (n, v)) (snd (n, v)))) with (put_fields (put_field s n v) hs).
  rewrite IH. f_equal. unfold put_field. cbn [headers fst snd]. rewrite hget_hset, headers_accept. reflexivity.
Qed.
Lemma fold_none : forall k hs o, (forall v : bytes, ~ In (k, v) hs) ->
  fold_left (fun o h => if beq (fst h) k then Some (snd h) else o) hs o = o.
Proof.
  induction hs as [|[n v] hs IH]; intros o H; auto. cbn [fold_left fst snd].
  destruct (beq n k) eqn:B. { apply beq_eq in B as ->. exfalso. apply (H v). left. reflexivity. }
  apply IH. intros v' I. apply (H v'). right. exact I.
Qed.
Lemma put_fields_last : forall hs s k o, headers s = [] -> last_value k hs o -> hget (headers (put_fields s hs)) k = o.
Proof.
  intros hs s k o E H. rewrite put_fields_get, E. cbn [hget]. destruct H as [hs H|a v b H].
  - apply fold_none. exact H.
  - rewrite fold_left_app. cbn [fold_left fst snd]. rewrite beq_refl. apply fold_none. exact H.
Qed.
Lemma last_value_total : forall k hs, exists o, last_value k hs o.
Proof.
  intros k hs. induction hs as [|[n v] hs IH].
  - exists None. constructor. intros v [].
  - destruct IH as [o H]. destruct H as [hs H|a v' b H].
    + destruct (list_eq_dec N.eq_dec n k) as [->|Ne].
      * exists (Some v). apply (last_some k [] v hs H).
      * exists None. constructor. intros v' [I|I]; [congruence|]. exact (H v' I).
    + exists (Some v'). apply (last_some k ((n, v) :: a) v' b H).
Qed.
Lemma put_fields_line1 : forall hs s, line1 (put_fields s hs) = line1 s.
Proof.
  induction hs as [|[n v] hs IH]; intro s; auto. cbn [put_fields fold_left].
  change (fold_left _ hs (put_field s (fst (n, v)) (snd (n, v)))) with (put_fields (put_field s n v) hs).
  rewrite IH. apply accept_line1.
Qed.
Lemma mentions_cons : forall n v hs k w, mentions ((n, v) :: hs) k w <->
  (n = k /\ within w v) \/ mentions hs k w.
Proof.
  intros. unfold mentions. split.
  - intros (x & [I|I] & W). + injection I as -> ->. auto. + right. eauto.
  - intros [[-> W]|(x & I & W)]. + exists v. split; auto. left. reflexivity. + exists x. split; auto. right. exact I.
Qed.
Lemma mentions_nil : forall k w, ~ mentions [] k w.
Proof. intros k w (v & [] & _). Qed.
Lemma accept_flags : forall s n v,
  (gzip (accept s n v) = true <-> gzip s = true \/ (n = bs "accept-encoding" /\ within (bs "gzip") v)) /\
  (deflate (accept s n v) = true <-> deflate s = true \/ (n = bs "accept-encoding" /\ within (bs "deflate") v)) /\
  (lz4f (accept s n v) = true <-> lz4f s = true \/ (n = bs "accept-encoding" /\ within (bs "lz4f") v)).
Proof.
  intros s n v. unfold accept. destruct (beq n (bs "accept-encoding")) eqn:B.
  - apply beq_eq in B. cbn [gzip deflate lz4f]. rewrite !orb_true_iff, !contains_iff. tauto.
  - apply beq_neq in B. tauto.
Qed.
Lemma put_fields_flags : forall hs s,
  (gzip (put_fields s hs) = true <-> gzip s = true \/ mentions hs (bs "accept-encoding") (bs "gzip")) /\
  (deflate (put_fields s hs) = true <-> deflate s = true \/ mentions hs (bs "accept-encoding") (bs "deflate")) /\
  (lz4f (put_fields s hs) = true <-> lz4f s = true \/ mentions hs (bs "accept-encoding") (bs "lz4f")).
Proof.
  induction hs as [|[n v] hs IH]; intro s.
  - cbn [put_fields fold_left]. pose proof mentions_nil as M. repeat split; auto; intros [H|H]; auto; destruct (M _ _ H).
  - cbn [put_fields fold_left fst snd].
    change (fold_left _ hs (put_field s n v)) with (put_fields (put_field s n v) hs).
    rewrite !mentions_cons. specialize (IH (put_field s n v)). pose proof (accept_flags s n v) as A.
    unfold put_field in *. cbn [gzip deflate lz4f] in *. tauto.
Qed.
