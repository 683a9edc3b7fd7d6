(** Sequences of calls; arrays; text buffers. *)
From Coq Require Import NArith ZArith List Bool Lia Arith ZifyBool ZifyNat ZifyN.
From Verif Require Import Linkh.Model Linkh.Spec Linkh.Proofs Linkh.Proofs2 Linkh.Proofs3.
Import ListNotations.

Definition Rel (hash : key -> N) (t : table) (w : world) : Prop :=
  exists ids, Inv hash t ids /\ abs (slots t) ids = obj w /\ released t = let_go w.

Lemma delete_spec : forall hash t ids s, Inv hash t ids ->
  match delete hash t s with
  | Done (r, t') => exists ids', Inv hash t' ids' /\ abs (slots t') ids' = del (abs (slots t) ids) s
      /\ released t' = released t ++ gone (abs (slots t) ids) s
      /\ cnt is_freed (slots t') = cnt is_freed (slots t) + (if has (abs (slots t) ids) s then 1 else 0)
      /\ (has (abs (slots t) ids) s = true -> reusable hash (slots t') s)
      /\ ~ In s (map fst (abs (slots t') ids'))
  | Hang => cnt is_empty (slots t) = 0
  | Bad => False
  end.
Proof.
  intros hash t ids s I. unfold delete.
  pose proof (lookup_entry_spec hash t ids s I) as L.
  destruct (lookup_entry hash t s) as [[n|]| |]; cbn [bind]; [| |exact (proj1 L)|exact L].
  - destruct L as [Hn Kn].
    destruct (delete_entry_spec hash t ids n s I Hn Kn) as (a & b & t' & -> & D & I' & A & R & _ & F & U).
    rewrite D.
    assert (Eq : abs (slots t) (a ++ n :: b) = abs (slots t) a ++ (s, v (slot (slots t) n)) :: abs (slots t) b).
    { unfold abs. rewrite map_app. cbn [map]. unfold cell at 2. rewrite Kn. reflexivity. }
    pose proof (i_dist _ _ _ I) as ND. rewrite Eq in *.
    destruct (present_map _ _ _ _ ND) as (P1 & P2 & P3 & P4). rewrite P1, P3, P4.
    exists (a ++ b). split; [exact I'|]. split; [exact A|]. split; [exact R|]. split; [lia|].
    split; [intros _; exact U|]. rewrite A.
    rewrite map_app in ND. cbn [map fst] in ND. apply NoDup_remove_2 in ND. rewrite map_app. exact ND.
  - assert (N : ~ In s (map fst (abs (slots t) ids))).
    { intros X. apply (in_abs _ _ _ _ I) in X. destruct X as (n & A & B). exact (L n A B). }
    destruct (absent_map _ _ N) as (P1 & P2 & P3 & P4). rewrite P1, P3, P4, app_nil_r.
    exists ids. split; [exact I|]. split; [reflexivity|]. split; [reflexivity|]. split; [lia|].
    split; [discriminate|exact N].
Qed.

Lemma lookup_spec : forall hash t ids s, Inv hash t ids ->
  match lookup hash t s with
  | Done x => x = get (abs (slots t) ids) s
  | Hang => cnt is_empty (slots t) = 0
  | Bad => False
  end.
Proof.
  intros hash t ids s I. unfold lookup.
  pose proof (lookup_entry_spec hash t ids s I) as L.
  destruct (lookup_entry hash t s) as [[n|]| |]; cbn [bind]; [| |exact (proj1 L)|exact L].
  - destruct L as [Hn Kn]. rewrite (nth_slot _ _ Hn).
    assert (J : In n ids) by (apply (i_in _ _ _ I); rewrite Kn; auto).
    destruct (in_split _ _ J) as (a & b & ->).
    assert (Eq : abs (slots t) (a ++ n :: b) = abs (slots t) a ++ (s, v (slot (slots t) n)) :: abs (slots t) b).
    { unfold abs. rewrite map_app. cbn [map]. unfold cell at 2. rewrite Kn. reflexivity. }
    pose proof (i_dist _ _ _ I) as ND. rewrite Eq in *.
    destruct (present_map _ _ _ _ ND) as (P1 & P2 & P3 & P4). symmetry. exact P2.
  - assert (N : ~ In s (map fst (abs (slots t) ids))).
    { intros X. apply (in_abs _ _ _ _ I) in X. destruct X as (n & A & B). exact (L n A B). }
    destruct (absent_map _ _ N) as (P1 & P2 & P3 & P4). symmetry. exact P2.
Qed.

Lemma op_spec : forall hash t w o, Rel hash t w ->
  match do_op hash t o with
  | Done (t', outs) => Rel hash t' (expect w o) /\ answers (expect w o) = answers w ++ outs
      /\ cnt is_freed (slots t') <= cnt is_freed (slots t) + removals (obj w) [o]
  | Hang => cnt is_empty (slots t) = 0
  | Bad => False
  end.
Proof.
  intros hash t w o (ids & I & A & R). destruct o as [s x|s|s]; cbn [do_op].
  - unfold object_add. pose proof (delete_spec hash t ids s I) as D.
    destruct (delete hash t s) as [[r t1]| |]; cbn [bind snd]; [|exact D|exact D].
    destruct D as (ids1 & I1 & A1 & R1 & F1 & U1 & N1).
    destruct (insert_spec hash t1 ids1 s x I1 N1) as (t2 & E & ids2 & I2 & A2 & R2 & _ & F2 & U2).
    rewrite E. cbn [bind]. split; [|split].
    + exists ids2. split; [exact I2|]. cbn [expect obj let_go]. unfold add. rewrite <- A, <- R. split; congruence.
    + cbn. rewrite app_nil_r. reflexivity.
    + cbn [removals]. destruct (has (abs (slots t) ids) s) eqn:H; [|lia].
      specialize (U2 (U1 eq_refl)). lia.
  - unfold object_del. pose proof (delete_spec hash t ids s I) as D.
    destruct (delete hash t s) as [[r t1]| |]; cbn [bind snd]; [|exact D|exact D].
    destruct D as (ids1 & I1 & A1 & R1 & F1 & U1 & N1). split; [|split].
    + exists ids1. split; [exact I1|]. cbn [expect obj let_go]. rewrite <- A, <- R. auto.
    + cbn. rewrite app_nil_r. reflexivity.
    + cbn [removals]. rewrite <- A. lia.
  - unfold object_get. pose proof (lookup_spec hash t ids s I) as L.
    destruct (lookup hash t s) as [x| |]; cbn [bind]; [|exact L|exact L].
    split; [exists ids; auto|]. split; [cbn; rewrite L, A; reflexivity|]. cbn. lia.
Qed.

Lemma rel_new : forall hash, Rel hash object_new w0.
Proof. intros hash. exists []. split; [apply new_inv; lia|]. split; reflexivity. Qed.

Lemma run_spec : forall hash ops t w, Rel hash t w ->
  match run hash t ops with
  | Done (t', outs) => Rel hash t' (expects w ops) /\ answers (expects w ops) = answers w ++ outs
  | Hang => True
  | Bad => False
  end.
Proof.
  intros hash. induction ops as [|o ops IH]; intros t w H; cbn [run].
  - split; [exact H|]. cbn. rewrite app_nil_r. reflexivity.
  - pose proof (op_spec hash t w o H) as S. destruct (do_op hash t o) as [[t1 o1]| |]; cbn [bind fst snd]; [|exact Logic.I|exact S].
    destruct S as (S1 & S2 & _). specialize (IH t1 _ S1).
    destruct (run hash t1 ops) as [[t2 o2]| |]; cbn [bind fst snd]; [|exact Logic.I|exact IH].
    destruct IH as (I1 & I2). split; [exact I1|]. cbn [expects fold_left]. unfold expects in I2. rewrite I2, S2, app_assoc. reflexivity.
Qed.

Lemma removals_cons : forall m o l, removals m (o :: l) = removals m [o] + removals (obj (expect (mkw m [] []) o)) l.
Proof. intros m [s x|s|s] l; cbn [removals expect obj]; lia. Qed.

Lemma run_returns : forall hash ops t w, Rel hash t w ->
  cnt is_freed (slots t) + removals (obj w) ops <= 4 -> exists r, run hash t ops = Done r.
Proof.
  intros hash. induction ops as [|o ops IH]; intros t w H F; cbn [run]; [eauto|].
  pose proof (op_spec hash t w o H) as S. destruct (do_op hash t o) as [[t1 o1]| |]; cbn [bind fst snd]; [| |destruct S].
  - destruct S as (S1 & S2 & S3). rewrite removals_cons in F.
    assert (E : obj (expect (mkw (obj w) [] []) o) = obj (expect w o)) by (destruct o; reflexivity).
    rewrite E in F.
    destruct (IH t1 (expect w o) S1) as (r & Hr); [lia|]. rewrite Hr. cbn [bind]. eauto.
  - exfalso. destruct H as (ids & I & _). pose proof (cnt_all (slots t)) as C.
    rewrite (i_cnt _ _ _ I) in C. pose proof (i_size _ _ _ I). pose proof (i_load _ _ _ I). lia.
Qed.

(** ** Arrays *)
Lemma set_cell_length : forall l n x, length (set_cell l n x) = length l.
Proof. induction l; destruct n; intros; cbn; auto. Qed.
Lemma set_cell_nth : forall l n x m, n < length l ->
  nth m (set_cell l n x) None = if Nat.eqb m n then x else nth m l None.
Proof.
  induction l as [|y l IH]; intros n x m H; [cbn in H; lia|].
  destruct n, m; cbn; auto. apply IH. cbn in H. lia.
Qed.

Record AInv (a : alist) (w : aworld) : Prop := mkAI {
  a_len : alength a = Z.of_N (len w);
  a_room : (Z.of_N (len w) <= Z.of_nat (length (cells a)))%Z;
  a_cells : forall i, nth (N.to_nat i) (cells a) None = at_ w i;
  a_holes : forall i, (len w <= i)%N -> at_ w i = None;
  a_drop : dropped a = replaced w }.

Lemma nth_app_none : forall (l : list value) n m, nth m (l ++ repeat None n) None = nth m l None.
Proof.
  intros l n m. destruct (le_lt_dec (length l) m) as [L|L].
  - rewrite app_nth2 by lia. rewrite (nth_overflow l) by lia. apply nth_repeat.
  - apply app_nth1. exact L.
Qed.

Lemma expand_spec : forall a m, (0 <= m)%Z ->
  (m <= Z.of_nat (length (cells (expand a m))))%Z /\ length (cells a) <= length (cells (expand a m)) /\
  (forall i, nth i (cells (expand a m)) None = nth i (cells a) None) /\
  alength (expand a m) = alength a /\ dropped (expand a m) = dropped a.
Proof.
  intros a m H. unfold expand. destruct (Z.ltb_spec m (Z.of_nat (length (cells a)))) as [L|L].
  - repeat split; lia.
  - cbn [cells alength dropped]. rewrite app_length, repeat_length.
    split; [lia|]. split; [lia|]. split; [intros i; apply nth_app_none|]. auto.
Qed.

Lemma put_spec : forall a w i x, AInv a w ->
  exists a', array_put a (Z.of_N i) x = Done a' /\ AInv a' (aput w i x).
Proof.
  intros a w i x [A1 A2 A3 A4 A5]. unfold array_put. cbv zeta.
  destruct (expand_spec a (Z.of_N i + 1)) as (E1 & E2 & E3 & E4 & E5); [lia|].
  set (b := expand a (Z.of_N i + 1)) in *.
  destruct (Z.ltb_spec (Z.of_N i) 0) as [L|_]; [lia|].
  replace (Z.to_nat (Z.of_N i)) with (N.to_nat i) by lia.
  assert (Hi : N.to_nat i < length (cells b)) by lia.
  rewrite (nth_error_nth' (cells b) (None : value) Hi). rewrite E3, A3.
  eexists. split; [reflexivity|].
  constructor; cbn [alength cells dropped len at_ replaced aput].
  - rewrite E4, A1. destruct (Z.leb_spec (Z.of_N (len w)) (Z.of_N i)); lia.
  - rewrite set_cell_length. lia.
  - intros j. rewrite set_cell_nth by exact Hi. rewrite E3, A3.
    destruct (Nat.eqb_spec (N.to_nat j) (N.to_nat i)) as [E|E]; destruct (N.eqb_spec j i); try lia; reflexivity.
  - intros j Hj. destruct (N.eqb_spec j i); [lia|]. apply A4. lia.
  - rewrite E5, A5. reflexivity.
Qed.

Lemma aop_spec : forall o a w, AInv a w -> exists a', do_aop a o = Done a' /\ AInv a' (aexpect w o).
Proof.
  intros [i x|x] a w I; cbn [do_aop aexpect].
  - apply put_spec. exact I.
  - unfold array_add. rewrite (a_len _ _ I). apply put_spec. exact I.
Qed.

Lemma aruns_spec : forall ops a w, AInv a w -> exists a', aruns a ops = Done a' /\ AInv a' (aexpects w ops).
Proof.
  induction ops as [|o ops IH]; intros a w I; cbn [aruns]; [eauto|].
  destruct (aop_spec o a w I) as (a1 & E & I1). rewrite E. cbn [bind]. exact (IH a1 _ I1).
Qed.

Lemma anew_inv : AInv array_new aw0.
Proof.
  constructor; cbn [array_new alength cells dropped aw0 len at_ replaced].
  - reflexivity.
  - rewrite repeat_length. lia.
  - intros i. apply nth_repeat.
  - reflexivity.
  - reflexivity.
Qed.

Lemma array_get_spec : forall a w i, AInv a w -> array_get a (Z.of_N i) = Done (at_ w i).
Proof.
  intros a w i [A1 A2 A3 A4 A5]. unfold array_get. rewrite A1.
  destruct (Z.leb_spec (Z.of_N (len w)) (Z.of_N i)) as [L|L]; [rewrite A4 by lia; reflexivity|].
  destruct (Z.ltb_spec (Z.of_N i) 0) as [L2|_]; [lia|].
  replace (Z.to_nat (Z.of_N i)) with (N.to_nat i) by lia.
  rewrite (nth_error_nth' (cells a) (None : value)) by lia. rewrite A3. reflexivity.
Qed.

Lemma firstn_seq : forall (l : list value) n, n <= length l -> firstn n l = map (fun i => nth i l None) (seq 0 n).
Proof.
  induction l as [|x l IH]; intros n H; [cbn in H; assert (n = 0) by lia; subst; reflexivity|].
  destruct n; [reflexivity|]. cbn [firstn seq map]. f_equal. rewrite <- seq_shift, map_map. apply IH. cbn in H. lia.
Qed.
Lemma array_free_spec : forall a w, AInv a w ->
  array_free a = replaced w ++ flat_map (fun i => pointer (at_ w (N.of_nat i))) (seq 0 (N.to_nat (len w))).
Proof.
  intros a w [A1 A2 A3 A4 A5]. unfold array_free. rewrite A5, A1. f_equal.
  replace (Z.to_nat (Z.of_N (len w))) with (N.to_nat (len w)) by lia.
  rewrite firstn_seq by lia. rewrite !flat_map_concat_map, map_map. f_equal. apply map_ext. intros i.
  rewrite <- A3, Nat2N.id. reflexivity.
Qed.

(** ** Text buffers *)
Definition PInv (p : pbuf) (s : list N) : Prop :=
  bpos p = length s /\ length s < length (buf p) /\ firstn (length s) (buf p) = s.

Lemma put_pb : forall p s x, PInv p s -> length s + length x < length (buf p) ->
  exists p', put p x = Done p' /\ PInv p' (s ++ x) /\ nth (length (s ++ x)) (buf p') 256%N = 0%N.
Proof.
  intros p s x (A & B & C) L. unfold put, copy_to. rewrite A.
  destruct (Nat.leb_spec (length s + length x) (length (buf p))) as [_|]; [|lia]. cbn [bind].
  rewrite !app_length, skipn_length, firstn_length. cbn [length].
  destruct (Nat.leb_spec (length s + length x + 1)
    (Nat.min (length s) (length (buf p)) + (length x + (length (buf p) - (length s + length x))))) as [_|]; [|lia].
  cbn [bind]. rewrite C.
  assert (F : firstn (length s + length x) (s ++ x ++ skipn (length s + length x) (buf p)) = s ++ x).
  { rewrite app_assoc, firstn_app. rewrite app_length, Nat.sub_diag. cbn [firstn]. rewrite app_nil_r.
    rewrite firstn_all2; [reflexivity|rewrite app_length; lia]. }
  rewrite F. eexists. split; [reflexivity|]. cbn [bpos buf].
  split; [split; [rewrite app_length; reflexivity|split]|].
  - cbn [buf]. rewrite (app_length (s ++ x) (_ ++ _)). cbn [app length]. lia.
  - cbn [buf]. rewrite firstn_app, Nat.sub_diag. cbn [firstn]. rewrite app_nil_r, firstn_all. reflexivity.
  - rewrite <- app_length. rewrite (app_nth2 (s ++ x)) by apply Nat.le_refl. rewrite Nat.sub_diag. reflexivity.
Qed.

Definition PNul (p : pbuf) (s : list N) : Prop := nth (length s) (buf p) 256%N = 0%N.

Lemma memappend_spec : forall p s x, PInv p s -> exists p', memappend p x = Done p' /\ PInv p' (s ++ x) /\ PNul p' (s ++ x).
Proof.
  intros p s x (A & B & C). unfold memappend.
  apply put_pb; unfold grow; rewrite A.
  - destruct (Nat.leb_spec (length (buf p) - length s) (length x)) as [L|L]; [|split; auto].
    split; [reflexivity|]. cbn [buf]. rewrite app_length, repeat_length. split; [lia|].
    rewrite firstn_app. replace (length s - length (buf p)) with 0 by lia. cbn [firstn]. rewrite app_nil_r. exact C.
  - destruct (Nat.leb_spec (length (buf p) - length s) (length x)) as [L|L]; [|lia].
    cbn [buf]. rewrite app_length, repeat_length. lia.
Qed.
Lemma pop_spec : forall o p s, PInv p s ->
  exists p', do_pop p o = Done p' /\ PInv p' (pexpect s o) /\ PNul p' (pexpect s o).
Proof.
  intros [x|x|] p s I; cbn [do_pop pexpect].
  - apply memappend_spec. exact I.
  - unfold memappend_fast. destruct (Nat.ltb_spec (length x) (length (buf p) - bpos p)) as [L|L].
    + apply put_pb; [exact I|]. destruct I as (A & B & _). rewrite A in L. lia.
    + apply memappend_spec. exact I.
  - destruct I as (A & B & C). unfold pb_reset, copy_to. cbn [length].
    destruct (Nat.leb_spec (0 + 1) (length (buf p))) as [_|]; [|lia]. cbn [bind firstn app].
    eexists. split; [reflexivity|]. split; [|reflexivity].
    split; [reflexivity|]. cbn [buf length firstn]. split; [lia|reflexivity].
Qed.
Lemma pruns_spec : forall ops p s, PInv p s ->
  exists p', pruns p ops = Done p' /\ PInv p' (fold_left pexpect ops s)
    /\ (ops <> [] -> PNul p' (fold_left pexpect ops s)).
Proof.
  induction ops as [|o ops IH]; intros p s I; cbn [pruns fold_left].
  - exists p. split; [reflexivity|]. split; [exact I|congruence].
  - destruct (pop_spec o p s I) as (p1 & E & I1 & N1). rewrite E. cbn [bind].
    destruct (IH p1 _ I1) as (p2 & E2 & I2 & N2). exists p2. split; [exact E2|]. split; [exact I2|].
    intros _. destruct ops as [|o' ops]; [|apply N2; discriminate].
    cbn in E2. injection E2 as <-. exact N1.
Qed.

(** ** Everything is released once *)
From Coq Require Import Permutation.

Lemma split_perm : forall (m : omap) s, Permutation m (gone m s ++ del m s).
Proof.
  induction m as [|e m IH]; intros s; [constructor|]. unfold gone, del in *. cbn [filter].
  destruct (same (fst e) s); cbn [negb].
  - constructor. apply IH.
  - rewrite (IH s) at 1. apply Permutation_middle.
Qed.

Lemma given_perm : forall ops w,
  Permutation (let_go (expects w ops) ++ obj (expects w ops)) ((let_go w ++ obj w) ++ given ops).
Proof.
  induction ops as [|o ops IH]; intros w; [cbn; rewrite app_nil_r; reflexivity|].
  cbn [expects fold_left]. unfold expects in IH. rewrite IH. cbn [given flat_map]. fold (given ops).
  rewrite app_assoc. apply Permutation_app_tail.
  destruct o as [s x|s|s]; cbn [expect let_go obj]; rewrite ?app_nil_r.
  - unfold add. rewrite !app_assoc. apply Permutation_app_tail. rewrite <- app_assoc. apply Permutation_app_head.
    symmetry. apply split_perm.
  - rewrite <- app_assoc. apply Permutation_app_head. symmetry. apply split_perm.
  - reflexivity.
Qed.

Definition held (w : aworld) : list N :=
  flat_map (fun i => pointer (at_ w (N.of_nat i))) (seq 0 (N.to_nat (len w))).

Lemma flat_map_ext_in : forall A B (f g : A -> list B) l, (forall a, In a l -> f a = g a) -> flat_map f l = flat_map g l.
Proof. intros A B f g l H. rewrite !flat_map_concat_map. f_equal. apply map_ext_in. exact H. Qed.
Lemma flat_map_nil_in : forall A B (f : A -> list B) l, (forall a, In a l -> f a = []) -> flat_map f l = [].
Proof. intros A B f l H. induction l as [|a l IH]; [reflexivity|]. cbn. rewrite H, IH; auto; [intros; apply H; right; assumption|left; reflexivity]. Qed.

Lemma aput_perm : forall w i x, (forall j, (len w <= j)%N -> at_ w j = None) ->
  Permutation (replaced (aput w i x) ++ held (aput w i x)) (replaced w ++ held w ++ pointer x).
Proof.
  intros w i x H. cbn [aput replaced]. rewrite <- app_assoc. apply Permutation_app_head.
  set (n := N.to_nat (N.max (len w) (i + 1))).
  assert (E : held w = flat_map (fun j => pointer (at_ w (N.of_nat j))) (seq 0 n)).
  { unfold held. replace n with (N.to_nat (len w) + (n - N.to_nat (len w))) by (unfold n; lia).
    rewrite seq_app, flat_map_app. rewrite (flat_map_nil_in _ _ _ (seq (0 + _) _)); [rewrite app_nil_r; reflexivity|].
    intros j J. apply in_seq in J. rewrite H by lia. reflexivity. }
  assert (Sq : seq 0 n = seq 0 (N.to_nat i) ++ N.to_nat i :: seq (S (N.to_nat i)) (n - S (N.to_nat i))).
  { replace n with (N.to_nat i + S (n - S (N.to_nat i))) at 1 by (unfold n; lia). rewrite seq_app. reflexivity. }
  rewrite E. unfold held. cbn [aput len at_]. fold n. rewrite Sq, !flat_map_app. cbn [flat_map].
  rewrite N2Nat.id, N.eqb_refl.
  rewrite (flat_map_ext_in _ _ (fun j => pointer (if (N.of_nat j =? i)%N then x else at_ w (N.of_nat j)))
             (fun j => pointer (at_ w (N.of_nat j))) (seq 0 (N.to_nat i))).
  2:{ intros j J. apply in_seq in J. destruct (N.eqb_spec (N.of_nat j) i); [lia|reflexivity]. }
  rewrite (flat_map_ext_in _ _ (fun j => pointer (if (N.of_nat j =? i)%N then x else at_ w (N.of_nat j)))
             (fun j => pointer (at_ w (N.of_nat j))) (seq (S (N.to_nat i)) _)).
  2:{ intros j J. apply in_seq in J. destruct (N.eqb_spec (N.of_nat j) i); [lia|reflexivity]. }
  generalize (flat_map (fun j => pointer (at_ w (N.of_nat j))) (seq 0 (N.to_nat i))) as A.
  generalize (flat_map (fun j => pointer (at_ w (N.of_nat j))) (seq (S (N.to_nat i)) (n - S (N.to_nat i)))) as B.
  generalize (pointer (at_ w i)) as O. generalize (pointer x) as X. intros X O B A.
  rewrite (app_assoc O), (Permutation_app_comm O A), <- !app_assoc. apply Permutation_app_head.
  rewrite <- (Permutation_app_comm B X). reflexivity || (rewrite !app_assoc; apply Permutation_app_head; apply Permutation_app_comm).
Qed.

Lemma agiven_perm : forall ops a w, AInv a w ->
  Permutation (replaced (aexpects w ops) ++ held (aexpects w ops)) ((replaced w ++ held w) ++ agiven ops).
Proof.
  induction ops as [|o ops IH]; intros a w I; [cbn; rewrite app_nil_r; reflexivity|].
  destruct (aop_spec o a w I) as (a1 & _ & I1).
  cbn [aexpects fold_left]. unfold aexpects in IH. rewrite (IH a1 _ I1). cbn [agiven flat_map]. fold (agiven ops).
  rewrite app_assoc. apply Permutation_app_tail.
  destruct o as [i x|x]; cbn [aexpect]; rewrite <- app_assoc; apply aput_perm; exact (a_holes _ _ I).
Qed.
