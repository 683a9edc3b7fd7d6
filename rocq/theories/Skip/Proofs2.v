(** Proofs about the skip list: finding, removing, walking and the whole run. *)
From Coq Require Import Arith NArith ZArith List Bool Lia ZifyBool ZifyNat ZifyN.
From Verif.Skip Require Import Model Spec Rep Proofs.
Import ListNotations.

Lemma bottom_row : forall (cs : list col), (forall c, In c cs -> snd c <> []) -> length (row 0 cs) = length cs.
Proof.
  induction cs as [|c cs IH]; intros H; [reflexivity|]. cbn [row flat_map]. rewrite app_length. unfold row in IH. rewrite IH by (intros x Hx; apply H; right; exact Hx).
  unfold nthrow. destruct c as [d [|a l]]; [destruct (H (d, []) (or_introl eq_refl)); reflexivity|reflexivity].
Qed.
Lemma last_none : forall A (l : list A), last_ l = None -> l = [].
Proof. intros A l H. unfold last_ in H. destruct (rev l) eqn:E; [|discriminate]. rewrite <- (rev_involutive l), E. reflexivity. Qed.

(** the neighbour before: the first column is not a neighbour *)
Definition hid (Lo : list col) : option nat := last_ (row 0 Lo).
Lemma descend_ok : forall s fr A d l B, Rep (heap s) fr (A ++ (d, l) :: B) -> forall i a f, nth_error l i = Some a -> i < f ->
  descend f s a = nth_error l 0.
Proof.
  intros s fr A d l B R. induction i as [|i IH]; intros a f Ha Hf; (destruct f as [|f]; [lia|]); cbn [descend];
    destruct (rep_node _ _ A d l B _ a R Ha) as (n & Hn & _ & _ & _ & _ & Dn); rewrite Hn, Dn.
  - cbn [below]. symmetry. exact Ha.
  - destruct (below_some _ _ _ Ha) as (b & Eb & Hb). rewrite Eb. apply IH; [exact Hb|lia].
Qed.
Lemma prev_hidden : forall s fr hl (Lo B : list col) p a, Rep (heap s) fr ((0%N, hl) :: Lo ++ B) -> hl <> [] -> (forall c, In c Lo -> snd c <> []) ->
  heap s p = Some a -> last_ (row 0 ((0%N, hl) :: Lo)) = Some p ->
  (match prev a with Some _ => Some p | None => None end) = hid Lo.
Proof.
  intros s fr hl Lo B p a R Hh Hn Hp La. destruct (rev Lo) as [|c r] eqn:ER.
  - assert (Lo = []) as -> by (rewrite <- (rev_involutive Lo), ER; reflexivity). destruct hl as [|x hl]; [congruence|].
    cbn [row flat_map nthrow snd nth_error app] in La. change (last_ [x]) with (Some x) in La. injection La as <-.
    destruct (rep_node _ _ [] 0%N (x :: hl) ([] ++ B) 0 x R eq_refl) as (n & En & _ & _ & Pv & _). assert (n = a) as -> by congruence. rewrite Pv. reflexivity.
  - assert (EL : Lo = rev r ++ [c]) by (rewrite <- (rev_involutive Lo), ER; reflexivity). destruct c as [dc [|x lc]].
    { exfalso. apply (Hn (dc, [])); [rewrite EL; ina|reflexivity]. }
    assert (Hx : hid Lo = Some x) by (unfold hid; rewrite EL, row_app; cbn [row flat_map nthrow snd nth_error app]; apply last_app).
    assert (p = x) as ->.
    { change ((0%N, hl) :: Lo) with ([(0%N, hl)] ++ Lo) in La. rewrite row_app, last_app_r in La.
      - unfold hid in Hx. rewrite Hx in La. congruence.
      - intros F. unfold hid in Hx. rewrite F in Hx. discriminate. }
    rewrite Hx. assert (R' : Rep (heap s) fr (((0%N, hl) :: rev r) ++ (dc, x :: lc) :: B)).
    { rewrite EL in R. rewrite <- app_assoc in R. exact R. }
    destruct (rep_node _ _ _ dc (x :: lc) B 0 x R' eq_refl) as (n & En & _ & _ & Pv & _). assert (n = a) as -> by congruence. rewrite Pv.
    destruct hl as [|y hl]; [congruence|]. cbn [row flat_map nthrow snd nth_error app].
    destruct (last_ (y :: flat_map (nthrow 0) (rev r))) eqn:Y; [reflexivity|]. apply last_none in Y. discriminate.
Qed.

Section F.
Variable comp : N -> N -> Z.
Lemma find_loop_ok : forall s hl k Lo Mid Hi, Rep (heap s) (fresh s) (((0%N, hl) :: Lo) ++ Mid ++ Hi) -> Cut comp k Lo Mid Hi ->
  (forall c, In c (Lo ++ Mid) -> snd c <> []) -> hl <> [] -> bottom s = hd_error hl -> length (addrs Mid) <= fresh s ->
  forall f i A d0 l0 L2 m pn, (0%N, hl) :: Lo = A ++ (d0, l0) :: L2 -> nth_error l0 i = Some m -> i + length L2 + 2 <= f ->
  find_loop comp f s k (Some m) pn = Some (hd_error (row 0 Mid), hid Lo, hd_error (row 0 Hi)).
Proof.
  intros s hl k Lo Mid Hi R C Hne Hh Hb HM0. induction f as [|f IH]; intros i A d0 l0 L2 m pn E Hm Hf; [lia|].
  cbn [find_loop]. destruct (search_step comp s (fresh s) k (0%N, hl) Lo Mid Hi R C i A d0 l0 L2 m E Hm) as (n & Hn & Dn & Pn & _ & Cs). rewrite Hn.
  assert (DOWN : row i L2 = [] -> row i Mid = [] -> forall q, q = hd_error (row i Hi) ->
    find_loop comp f s k (down n) (match down n with
      | None => (if match bottom s with Some b => Nat.eqb m b | None => false end then None
                 else match prev n with Some _ => Some m | None => None end, q)
      | Some _ => pn end) = Some (hd_error (row 0 Mid), hid Lo, hd_error (row 0 Hi))).
  { intros HL HM q ->. pose proof (lastr_here _ _ _ _ _ _ _ _ E Hm HL) as La. rewrite Dn. destruct i as [|j].
    - cbn [below]. destruct f as [|f]; [lia|]. cbn [find_loop fst snd].
      assert (Mid = []) as ->.
      { pose proof (bottom_row Mid) as X. rewrite HM in X. destruct Mid; [reflexivity|]. cbn [length] in X. discriminate X. intros c0 Hc0. apply Hne. ina. }
      assert (R' : Rep (heap s) (fresh s) ((0%N, hl) :: Lo ++ Hi)) by exact R.
      pose proof (prev_hidden s (fresh s) hl Lo Hi m n R' Hh ltac:(intros c Hc; apply Hne; ina) Hn La) as PH.
      rewrite Hb. destruct hl as [|x hl]; [congruence|]. cbn [hd_error]. destruct (Nat.eqb m x) eqn:Em; [|rewrite PH; reflexivity].
      apply Nat.eqb_eq in Em. subst x. destruct (rep_node _ _ [] 0%N (m :: hl) (Lo ++ Hi) 0 m R eq_refl) as (n' & En & _ & _ & Pv & _).
      assert (n' = n) as -> by congruence. rewrite Pv in PH. cbn [row flat_map] in PH. rewrite <- PH. reflexivity.
    - destruct (below_some _ _ _ Hm) as (b & Eb & Hb'). rewrite Eb. apply (IH j A d0 l0 L2 b _ E Hb'). lia. }
  destruct Cs as [(D1 & c & D2 & q & nq & EL & Hq & Nx & Hnq & Hc)|[(c & q & nq & EM & Hq & Nx & Hnq & Hc)|(HL & HM & Nx & Hc)]].
  - rewrite Nx, Hnq. replace (comp k (data nq) =? 0)%Z with false by lia. replace (comp k (data nq) <? 0)%Z with false by lia.
    destruct c as [dc lc]. cbn [snd] in Hq. apply (IH i (A ++ (d0, l0) :: D1) dc lc D2 q pn).
    + rewrite E, EL, <- app_assoc. reflexivity.
    + exact Hq.
    + rewrite EL, app_length in Hf. cbn [length] in Hf. lia.
  - rewrite Nx, Hnq, Hc. cbn [Z.eqb]. subst Mid. destruct c as [dc lc]. cbn [snd] in Hq.
    assert (Hi' : i < length lc) by (apply nth_error_Some; congruence).
    cbn [addrs flat_map snd] in HM0. rewrite app_nil_r in HM0.
    rewrite (descend_ok s (fresh s) ((0%N, hl) :: Lo) dc lc Hi R i q (fuel s) Hq) by (unfold fuel; lia).
    destruct lc as [|b lc]; [cbn [length] in Hi'; lia|]. cbn [nth_error].
    destruct (rep_node _ _ ((0%N, hl) :: Lo) dc (b :: lc) Hi 0 b R eq_refl) as (nb & Hnb & _ & Nb & Pb & _). rewrite Hnb, Pb, Nb.
    cbn [row flat_map nthrow snd nth_error app hd_error]. destruct hl as [|x hl]; [congruence|]. cbn [nthrow snd nth_error app].
    destruct (last_ (x :: flat_map (nthrow 0) Lo)) as [p|] eqn:La; [|apply last_none in La; discriminate].
    assert (Hp : exists np, heap s p = Some np).
    { destruct (heap s p) eqn:Y; [eauto|]. exfalso. assert (Z : heap s p <> None); [|congruence]. apply (r_dom _ _ _ R).
      apply (row_addrs 0). apply last_in in La as (l' & La). rewrite row_app. apply in_or_app. left. cbn [row flat_map nthrow snd nth_error app].
      rewrite La. ina. }
    destruct Hp as (np & Hnp). rewrite Hnp.
    assert (R' : Rep (heap s) (fresh s) ((0%N, x :: hl) :: Lo ++ ((dc, b :: lc) :: Hi))) by exact R.
    rewrite (prev_hidden s (fresh s) (x :: hl) Lo _ p np R' Hh ltac:(intros c Hc'; apply Hne; ina) Hnp La). reflexivity.
  - destruct (next n) as [q|] eqn:Nq.
    + destruct (Hc q eq_refl) as (nq & Hnq & Hc'). rewrite Hnq. replace (comp k (data nq) =? 0)%Z with false by lia.
      replace (comp k (data nq) <? 0)%Z with true by lia. apply DOWN; [assumption|assumption|exact Nx].
    + apply DOWN; [assumption|assumption|exact Nx].
Qed.
End F.
Lemma find_ok : forall comp compk s hl tl k Lo Mid Hi, Inv comp s hl tl -> tl = Lo ++ Mid ++ Hi -> Cut compk k Lo Mid Hi ->
  find compk s k = Some (hd_error (row 0 Mid), hid Lo, hd_error (row 0 Hi)).
Proof.
  intros comp compk s hl tl k Lo Mid Hi I Et C. unfold find. rewrite (v_top _ _ _ _ I).
  destruct hl as [|x hl'].
  - assert (tl = []). { destruct tl as [|c tl]; [reflexivity|]. destruct (v_cols _ _ _ _ I c (or_introl eq_refl)) as (X & Y). cbn [length] in Y.
      destruct (snd c); [congruence|cbn [length] in Y; lia]. }
    rewrite H in Et. symmetry in Et. apply app_eq_nil in Et as (-> & Et). apply app_eq_nil in Et as (-> & ->). reflexivity.
  - set (hl := x :: hl') in *. assert (Hh : hl <> []) by discriminate. clearbody hl. rewrite <- hl_top by exact Hh.
    assert (L1 : 1 <= length hl) by (destruct hl; [congruence|cbn [length]; lia]).
    destruct (nth_error hl (length hl - 1)) as [t|] eqn:Ht; [|apply nth_error_None in Ht; lia].
    pose proof (v_rep _ _ _ _ I) as R. pose proof (inv_len _ _ _ _ R (v_cols _ _ _ _ I)) as LL. pose proof (rep_len _ _ _ R) as LA.
    cbn [addrs flat_map snd] in LA. rewrite app_length in LA. pose proof Et as Et'. apply (f_equal (fun l => length (addrs l))) in Et'. unfold addrs in Et' at 1.
    rewrite !addrs_app, !app_length in Et'. pose proof Et as Lt. apply (f_equal (@length col)) in Lt. rewrite !app_length in Lt.
    apply (find_loop_ok compk s hl k Lo Mid Hi) with (i := length hl - 1) (A := []) (d0 := 0%N) (l0 := hl) (L2 := Lo); auto.
    + clear -R Et. rewrite Et in R. exact R.
    + intros c Hc. apply (v_cols _ _ _ _ I). rewrite Et. clear -Hc. rewrite !in_app_iff in *. tauto.
    + apply (v_bot _ _ _ _ I).
    + unfold addrs, col in *. lia.
    + unfold fuel, col in *. lia.
Qed.

(** the data of the bottom nodes *)
Lemma data_hd : forall s fr A c B, Rep (heap s) fr (A ++ c :: B) -> snd c <> [] -> data_of s (nth_error (snd c) 0) = Some (Some (fst c)).
Proof.
  intros s fr A [d [|a l]] B R H; [destruct H; reflexivity|]. cbn [snd fst nth_error data_of].
  destruct (rep_node _ _ A d (a :: l) B 0 a R eq_refl) as (n & Hn & Dn & _). rewrite Hn, Dn. reflexivity.
Qed.
Lemma data_first : forall s fr A B C, Rep (heap s) fr (A ++ B ++ C) -> (forall c, In c B -> snd c <> []) ->
  data_of s (hd_error (row 0 B)) = Some (hd_error (map fst B)).
Proof.
  intros s fr A [|c B] C R H; [reflexivity|]. pose proof (H c (or_introl eq_refl)) as Hc.
  pose proof (data_hd s fr A c (B ++ C) R Hc) as D. destruct c as [d [|a l]]; [destruct Hc; reflexivity|]. exact D.
Qed.
Lemma data_last : forall s fr A B C, Rep (heap s) fr (A ++ B ++ C) -> (forall c, In c B -> snd c <> []) ->
  data_of s (hid B) = Some (last_error (map fst B)).
Proof.
  intros s fr A B C R H. destruct (rev B) as [|c r] eqn:E.
  - assert (B = []) as -> by (rewrite <- (rev_involutive B), E; reflexivity). reflexivity.
  - assert (EB : B = rev r ++ [c]) by (rewrite <- (rev_involutive B), E; reflexivity).
    assert (Hc : snd c <> []) by (apply H; rewrite EB; ina).
    assert (R' : Rep (heap s) fr ((A ++ rev r) ++ c :: C)). { rewrite EB in R. rewrite <- app_assoc in R. rewrite <- app_assoc. exact R. }
    pose proof (data_hd s fr _ c C R' Hc) as D. unfold hid, last_error. rewrite EB, map_app, row_app, rev_app_distr. cbn [map rev app hd_error].
    destruct c as [d [|a l]]; [destruct Hc; reflexivity|]. change (row 0 [(d, a :: l)]) with [a]. rewrite last_app. exact D.
Qed.

(** walking forward and backward *)
Lemma forward_ok : forall s fr B A f, Rep (heap s) fr (A ++ B) -> (forall c, In c B -> snd c <> []) -> length B < f ->
  forward f s (hd_error (row 0 B)) = Some (map fst B).
Proof.
  intros s fr. induction B as [|c B IH]; intros A f R H Hf; (destruct f as [|f]; [lia|]); [reflexivity|]. cbn [length] in Hf.
  destruct c as [d [|a l]]; [destruct (H (d, []) (or_introl eq_refl)); reflexivity|]. cbn [row flat_map nthrow snd nth_error app hd_error forward].
  destruct (rep_node _ _ A d (a :: l) B 0 a R eq_refl) as (n & Hn & Dn & Nn & _). rewrite Hn, Nn, Dn.
  rewrite (IH (A ++ [(d, a :: l)]) f); [reflexivity| |intros c Hc; apply H; right; exact Hc|lia]. rewrite <- app_assoc. exact R.
Qed.
Lemma backward_ok : forall s fr hl, hl <> [] -> forall r B f, Rep (heap s) fr ((0%N, hl) :: rev r ++ B) -> (forall c, In c r -> snd c <> []) -> length r < f ->
  backward f s (match r with [] => None | c :: _ => nth_error (snd c) 0 end) = Some (map fst r).
Proof.
  intros s fr hl Hh. induction r as [|c r IH]; intros B f R H Hf; (destruct f as [|f]; [lia|]); [reflexivity|]. cbn [length] in Hf.
  destruct c as [d [|a l]]; [destruct (H (d, []) (or_introl eq_refl)); reflexivity|]. cbn [snd nth_error backward map fst].
  assert (R' : Rep (heap s) fr (((0%N, hl) :: rev r) ++ (d, a :: l) :: B)). { cbn [rev] in R. rewrite <- app_assoc in R. exact R. }
  destruct (rep_node _ _ _ d (a :: l) B 0 a R' eq_refl) as (n & Hn & Dn & _ & Pn & _). rewrite Hn. unfold previous. rewrite Hn, Pn.
  destruct (last_ (row 0 ((0%N, hl) :: rev r))) as [p|] eqn:La.
  2: { apply last_none in La. destruct hl; [congruence|discriminate]. }
  assert (Hp : exists np, heap s p = Some np).
  { destruct (heap s p) eqn:Y; [eauto|]. exfalso. assert (Z : heap s p <> None); [|congruence]. apply (r_dom _ _ _ R').
    apply (row_addrs 0). apply last_in in La as (l' & La). rewrite row_app. apply in_or_app. left. rewrite La. ina. }
  destruct Hp as (np & Hnp). rewrite Hnp.
  assert (Hr : forall c, In c (rev r) -> snd c <> []) by (intros c Hc; apply H; right; apply in_rev; exact Hc).
  pose proof (prev_hidden s fr hl (rev r) _ p np R' Hh Hr Hnp La) as PH.
  replace (match prev np with None => None | Some _ => Some p end) with (hid (rev r)) by (rewrite <- PH; reflexivity).
  assert (E : hid (rev r) = match r with [] => None | c :: _ => nth_error (snd c) 0 end).
  { unfold hid. destruct r as [|c r]; [reflexivity|]. cbn [rev]. rewrite row_app.
    assert (Hc : snd c <> []) by (apply H; right; left; reflexivity). destruct c as [dc [|y lc]]; [destruct Hc; reflexivity|].
    change (row 0 [(dc, y :: lc)]) with [y]. apply last_app. }
  rewrite E. rewrite (IH ((d, a :: l) :: B) f); [rewrite Dn; reflexivity|exact R'|intros c Hc; apply H; right; exact Hc|lia].
Qed.

(** taking a column out *)
Lemma ascend_ok : forall s fr A d l B, Rep (heap s) fr (A ++ (d, l) :: B) -> forall f i a, nth_error l i = Some a -> length l - i <= f ->
  ascend f s a = last_ l.
Proof.
  intros s fr A d l B R. induction f as [|f IH]; intros i a Ha Hf.
  - assert (i < length l) by (apply nth_error_Some; congruence). lia.
  - cbn [ascend]. destruct (rep_node _ _ A d l B i a R Ha) as (n & Hn & _ & _ & _ & Up & _). rewrite Hn, Up.
    assert (Hi : i < length l) by (apply nth_error_Some; congruence).
    destruct (nth_error l (S i)) as [q|] eqn:E.
    + apply (IH (S i)); [exact E|lia].
    + apply nth_error_None in E. rewrite <- Ha. rewrite <- hl_top by (intros ->; cbn [length] in Hi; lia). f_equal. lia.
Qed.
Lemma unl_node : forall h fr A d l a B, Unl h fr A d (l ++ [a]) B ->
  exists n, h a = Some n /\ data n = d /\ next n = hd_error (row (length l) B) /\ prev n = last_ (row (length l) A) /\ down n = last_ l.
Proof.
  intros h fr A d l a B U.
  assert (Ea : nth_error (l ++ [a]) (length l) = Some a) by (rewrite nth_error_app2, Nat.sub_diag by lia; reflexivity).
  assert (X : hp h a = Some (hd_error (row (length l) B), last_ (row (length l) A))).
  { apply (u_h _ _ _ _ _ _ U (length l)). rewrite row_mid. unfold nthrow. cbn [snd]. rewrite Ea. reflexivity. }
  destruct (u_c _ _ _ _ _ _ U _ _ Ea) as (u & V). unfold hp in X. unfold vp in V. destruct (h a) as [n|]; [|discriminate].
  exists n. cbn [option_map] in *. assert (Bl : below (l ++ [a]) (length l) = last_ l).
  { destruct (length l) as [|j] eqn:L; [destruct l; [reflexivity|discriminate]|]. cbn [below]. rewrite nth_error_app1 by lia.
    replace j with (length l - 1) by lia. apply hl_top. intros ->. discriminate. }
  rewrite Bl in V. repeat split; congruence.
Qed.
Lemma hp_vp_eq : forall h h' z n n', h z = Some n -> h' z = Some n' -> hp h' z = hp h z -> vp h' z = vp h z -> n' = n.
Proof.
  intros h h' z n n' H H' E1 E2. unfold hp, vp in *. rewrite H, H' in *. cbn [option_map] in *. destruct n, n'; cbn in *. congruence.
Qed.
Lemma unlink_ok : forall A d B myfree l s evs f, Unl (heap s) (fresh s) A d l B -> (forall j, j < length l -> last_ (row j A) <> None) -> length l < f ->
  exists s', unlink f s (last_ l) myfree evs = Some (s', evs ++ (match l with [] => [] | _ => freed myfree [d] end)) /\
    Rep (heap s') (fresh s') (A ++ B) /\ frame s s'.
Proof.
  intros A d B myfree. induction l as [|a l IH] using rev_ind; intros s evs f U HA Hf; (destruct f as [|f]; [lia|]).
  - cbn [unlink]. exists s. rewrite app_nil_r. split; [reflexivity|]. split; [eapply unl_end; exact U|apply frame_refl].
  - rewrite last_app. rewrite app_length in Hf, HA. cbn [length] in Hf, HA. cbn [unlink].
    destruct (unl_node _ _ _ _ _ _ _ U) as (n & Hn & Dn & Nn & Pn & Wn). rewrite Hn, Pn.
    destruct (last_ (row (length l) A)) as [pv|] eqn:La; [|destruct (HA (length l)); [lia|exact La]].
    assert (Hrow : NoDup (row (length l) A ++ a :: row (length l) B)).
    { pose proof (row_nd _ (length l) (u_nd _ _ _ _ _ _ U)) as X. rewrite row_mid, nthrow_snoc, Nat.eqb_refl in X. exact X. }
    assert (Ipv : In pv (row (length l) A)) by (apply last_in in La as (r & ->); ina).
    pose proof (NoDup_remove_2 _ _ _ Hrow) as Na. rewrite in_app_iff in Na.
    assert (Npv : pv <> a) by (intros ->; apply Na; left; exact Ipv).
    assert (Nq : forall q, hd_error (row (length l) B) = Some q -> q <> a /\ q <> pv).
    { intros q Hq. apply hd_in in Hq as (r & Hq). split; intros ->.
      - apply Na. right. rewrite Hq. left. reflexivity.
      - apply NoDup_remove_1, nodup_split in Hrow as (_ & _ & X). apply (X pv Ipv). rewrite Hq. left. reflexivity. }
    assert (Dom : forall z j, In z (row j A) \/ In z (row j B) -> heap s z <> None).
    { intros z j Hz. apply (u_dom _ _ _ _ _ _ U). rewrite addrs_mid. destruct Hz as [Hz|Hz]; apply row_addrs in Hz; ina. }
    destruct (put_next s pv (next n) (Dom pv _ (or_introl Ipv))) as (s1 & E1 & F1 & P1 & P2 & P3 & P4). rewrite E1.
    assert (H1 : exists n1, heap s1 a = Some n1).
    { destruct (heap s1 a) eqn:Y; [eauto|]. exfalso. apply (proj2 (P4 a)); [congruence|exact Y]. }
    destruct H1 as (n1 & Hn1). rewrite Hn1. assert (n1 = n) as -> by (eapply hp_vp_eq; [exact Hn|exact Hn1|apply P2; congruence|apply P3]).
    rewrite Pn, Wn. rewrite Nn in *.
    destruct (put_prev s1 (hd_error (row (length l) B)) (Some pv)) as (s2 & E2 & F2 & Q1 & Q2 & Q3 & Q4).
    { intros q Hq. apply P4. apply (Dom q (length l)). right. apply hd_in in Hq as (r & ->). left. reflexivity. }
    rewrite E2. assert (H2 : heap s2 a <> None) by (apply Q4; congruence). unfold free. destruct (heap s2 a) as [n2|] eqn:Hn2; [|congruence].
    set (s3 := set_heap s2 (upd (heap s2) a None)). assert (Fs : frame s s3). { eapply frame_trans; [exact F1|]. eapply frame_trans; [exact F2|]. repeat split. }
    assert (O : forall z, z <> a -> heap s3 z = heap s2 z) by (intros z Hz; cbn [s3 set_heap heap]; apply upd_other; exact Hz).
    assert (Oh : forall z, z <> a -> hp (heap s3) z = hp (heap s2) z) by (intros z Hz; unfold hp; rewrite O by exact Hz; reflexivity).
    assert (U3 : Unl (heap s3) (fresh s3) A d l B).
    { replace (fresh s3) with (fresh s) by (destruct Fs as (? & ? & ? & ? & ?); congruence).
      apply (unl_del (heap s) (heap s3) (fresh s) A d l B a U).
      - rewrite La. intros m nx pv' Hm X. injection Hm as <-. rewrite Oh by exact Npv. rewrite Q2; [apply P1 with nx; exact X|].
        intros F. apply Nq in F. tauto.
      - intros q nx pv' Hq X. destruct (Nq q Hq). rewrite La, Oh by assumption. apply Q1 with pv'; [exact Hq|]. rewrite P2 by assumption. exact X.
      - rewrite La. intros z Z1 Z2 Z3. rewrite Oh, Q2, P2 by congruence. reflexivity.
      - intros z Hz. unfold vp at 1. rewrite O by exact Hz. fold (vp (heap s2) z). rewrite Q3, P3. reflexivity.
      - cbn [s3 set_heap heap]. apply upd_same. }
    set (evs' := match last_ l with None => if myfree && negb (N.eqb (data n) 0) then evs ++ [data n] else evs | Some _ => evs end).
    destruct (IH s3 evs' f U3 ltac:(intros j Hj; apply HA; lia) ltac:(lia)) as (s' & E' & R' & F').
    exists s'. split; [|split; [exact R'|eapply frame_trans; eassumption]]. rewrite E'. f_equal. f_equal.
    subst evs'. rewrite Dn. unfold freed. destruct l as [|x l].
    + cbn [last_ rev hd_error app]. rewrite app_nil_r. cbn [filter]. destruct myfree; cbn [andb]; [|rewrite app_nil_r; reflexivity].
      destruct (N.eqb d 0); cbn [negb]; [rewrite app_nil_r; reflexivity|reflexivity].
    + destruct (last_ (x :: l)) eqn:Y; [reflexivity|]. apply last_none in Y. discriminate.
Qed.
Lemma shrink_ok : forall tl l s f, Rep (heap s) (fresh s) ((0%N, l) :: tl) -> top s = last_ l -> height s = length l ->
  (forall c : col, In c tl -> snd c <> [] /\ length (snd c) <= length l) -> length l < f ->
  exists s' l' more, shrink f s = Some s' /\ l = l' ++ more /\ Rep (heap s') (fresh s') ((0%N, l') :: tl) /\ top s' = last_ l' /\ height s' = length l' /\
    (forall c : col, In c tl -> snd c <> [] /\ length (snd c) <= length l') /\ bottom s' = bottom s /\ size s' = size s /\ (tl = [] -> l' = []).
Proof.
  intros tl. induction l as [|a l IH] using rev_ind; intros s f R Ht Hh Hc Hf; (destruct f as [|f]; [lia|]); cbn [shrink]; rewrite Ht.
  - cbn [last_ rev hd_error]. exists s, [], []. split; [reflexivity|]. split; [reflexivity|]. repeat split; try assumption; try (apply R); try reflexivity.
    + apply Hc. assumption.
    + apply Hc. assumption.
  - rewrite last_app. rewrite app_length in Hf, Hh. cbn [length] in Hf, Hh.
    assert (Ea : nth_error (l ++ [a]) (length l) = Some a) by (rewrite nth_error_app2, Nat.sub_diag by lia; reflexivity).
    pose proof (unl_start _ _ [] 0%N (l ++ [a]) tl R) as U.
    destruct (unl_node _ _ _ _ _ _ _ U) as (n & Hn & Dn & Nn & Pn & Wn). rewrite Hn, Nn.
    destruct (hd_error (row (length l) tl)) as [q|] eqn:Eq.
    + exists s, (l ++ [a]), []. rewrite app_nil_r, last_app, app_length. cbn [length]. split; [reflexivity|]. split; [reflexivity|].
      split; [exact R|]. split; [rewrite Ht; apply last_app|]. split; [exact Hh|]. split; [intros c Hc'; specialize (Hc c Hc'); rewrite app_length in Hc; exact Hc|].
      split; [reflexivity|]. split; [reflexivity|]. intros ->. discriminate.
    + rewrite Wn. assert (Hlast : forall z, last_ l = Some z -> heap s z <> None /\ z <> a).
      { intros z Hz. apply last_in in Hz as (l0 & El). split.
        - apply (r_dom _ _ _ R). cbn [addrs flat_map snd]. rewrite El. ina.
        - intros ->. pose proof (r_nd _ _ _ R) as ND. apply (addrs_snoc [] 0%N l a tl) in ND as (_ & ND). apply ND. cbn [app addrs flat_map snd]. rewrite El. ina. }
      destruct (put_up s (last_ l) None) as (s1 & E1 & (F1 & F2 & F3 & F4 & F5) & V1 & V2 & H1 & D1).
      { intros p Hp. apply (Hlast p Hp). }
      rewrite E1. unfold free. assert (X : heap s1 a <> None) by (apply D1; congruence). destruct (heap s1 a) as [n1|] eqn:Y; [|congruence].
      set (s2 := Sl (last_ l) (bottom s1) (pred (height s1)) (size s1) (upd (heap s1) a None) (fresh s1)).
      assert (O : forall z, z <> a -> heap s2 z = heap s1 z) by (intros z Hz; cbn [s2 heap]; apply upd_other; exact Hz).
      assert (Row0 : row (length l) tl = []) by (destruct (row (length l) tl); [reflexivity|discriminate]).
      assert (R2 : Rep (heap s2) (fresh s2) ((0%N, l) :: tl)).
      { cbn [s2 fresh]. replace (fresh s1) with (fresh s) by congruence. apply (rep_pop (heap s) (heap s2) (fresh s) 0%N l tl a R); auto.
        - intros z Hz. unfold hp at 1. rewrite O by exact Hz. fold (hp (heap s1) z). apply H1.
        - intros z d' u b Hz V. unfold vp. rewrite O by apply (Hlast z Hz). apply (V1 z d' u b Hz V).
        - intros z Hz Hl. unfold vp at 1. rewrite O by exact Hz. fold (vp (heap s1) z). apply V2. exact Hl.
        - cbn [s2 heap]. apply upd_same. }
      destruct (IH s2 f R2) as (s' & l' & more & E' & El & R' & T' & G' & C' & B' & Z' & M'); try reflexivity.
      { cbn [s2 height]. rewrite F3, Hh. lia. }
      { intros c Hc'. split; [apply Hc; exact Hc'|]. apply (row_tall _ _ Row0 c Hc'). }
      { lia. }
      exists s', l', (more ++ [a]). split; [exact E'|]. split; [rewrite El, <- app_assoc; reflexivity|]. cbn [s2 bottom size] in B', Z'.
      split; [exact R'|]. split; [exact T'|]. split; [exact G'|]. split; [exact C'|]. split; [congruence|]. split; [congruence|exact M'].
Qed.
Lemma sorted_del : forall comp l1 x l2, sorted comp (l1 ++ x :: l2) -> sorted comp (l1 ++ l2).
Proof.
  intros comp l1 x l2 H. apply sorted_app in H as (H1 & H2 & H3). cbn [sorted] in H2. apply sorted_app. split; [exact H1|]. split; [apply H2|].
  intros a b Ha Hb. apply H3; [exact Ha|right; exact Hb].
Qed.
Lemma remove_node_ok : forall comp s hl (Lo Hi : list col) d a lc myfree, Inv comp s hl (Lo ++ (d, a :: lc) :: Hi) ->
  exists s' hl', remove_node s a myfree = Some (s', freed myfree [d]) /\ Inv comp s' hl' (Lo ++ Hi).
Proof.
  intros comp s hl Lo Hi d a lc myfree I. pose proof (v_rep _ _ _ _ I) as R. unfold remove_node.
  assert (R0 : Rep (heap s) (fresh s) (((0%N, hl) :: Lo) ++ (d, a :: lc) :: Hi)) by exact R.
  pose proof (rep_len _ _ _ R0) as LA. rewrite addrs_mid, !app_length in LA.
  assert (Hc : length (a :: lc) <= length hl) by (apply (v_cols _ _ _ _ I (d, a :: lc)); ina).
  rewrite (ascend_ok s (fresh s) _ d (a :: lc) Hi R0 (fuel s) 0 a eq_refl) by (unfold fuel; lia).
  destruct (last_ (a :: lc)) as [t|] eqn:Et; [|apply last_none in Et; discriminate]. rewrite <- Et.
  destruct (unlink_ok _ d Hi myfree (a :: lc) s [] (fuel s) (unl_start _ _ _ _ _ _ R0)) as (s1 & E1 & R1 & F1 & F2 & F3 & F4 & F5).
  { intros j Hj. rewrite header_last by lia. discriminate. }
  { unfold fuel. lia. }
  rewrite E1. set (s2 := Sl (top s1) (bottom s1) (height s1) (size s1 - 1) (heap s1) (fresh s1)).
  assert (C2 : forall c : col, In c (Lo ++ Hi) -> snd c <> [] /\ length (snd c) <= length hl) by (intros c Hc'; apply (v_cols _ _ _ _ I); clear -Hc'; rewrite in_app_iff in *; cbn [In]; tauto).
  destruct (shrink_ok (Lo ++ Hi) hl s2 (fuel s1)) as (s3 & hl' & more & E3 & El & R3 & T3 & G3 & C3 & B3 & Z3 & M3).
  { exact R1. }
  { cbn [s2 top]. rewrite F1. apply (v_top _ _ _ _ I). }
  { cbn [s2 height]. rewrite F3. apply (v_height _ _ _ _ I). }
  { exact C2. }
  { unfold fuel. rewrite F5. pose proof (inv_len _ _ _ _ R (v_cols _ _ _ _ I)). lia. }
  rewrite E3. eexists. exists hl'. split; [reflexivity|].
  constructor; cbn [heap fresh top bottom height size]; auto.
  - rewrite T3. destruct hl' as [|x hl']; [reflexivity|]. destruct (last_ (x :: hl')) eqn:Y; [|apply last_none in Y; discriminate].
    rewrite B3. cbn [s2 bottom]. rewrite F2, (v_bot _ _ _ _ I), El. reflexivity.
  - rewrite Z3. cbn [s2 size]. rewrite F4, (v_size _ _ _ _ I), !app_length. cbn [length]. unfold col. lia.
  - pose proof (v_max _ _ _ _ I). rewrite El, app_length in H. lia.
  - pose proof (v_sorted _ _ _ _ I) as S0. rewrite map_app in *. cbn [map fst] in S0. eapply sorted_del; exact S0.
Qed.

Lemma inv_hl : forall comp s tl, Inv comp s [] tl -> tl = [].
Proof.
  intros comp s tl I. destruct tl as [|c tl]; [reflexivity|]. destruct (v_cols _ _ _ _ I c (or_introl eq_refl)) as (X & Y). cbn [length] in Y.
  destruct (snd c); [congruence|cbn [length] in Y; lia].
Qed.
Lemma getlist_ok : forall comp s hl tl, Inv comp s hl tl -> getlist s = Some (hd_error (row 0 tl)).
Proof.
  intros comp s hl tl I. unfold getlist. rewrite (v_bot _ _ _ _ I). destruct hl as [|b hl].
  - rewrite (inv_hl _ _ _ I). reflexivity.
  - cbn [hd_error]. destruct (rep_node _ _ [] 0%N (b :: hl) tl 0 b (v_rep _ _ _ _ I) eq_refl) as (n & Hn & _ & Nn & _). rewrite Hn, Nn. reflexivity.
Qed.

(** emptying the list *)
Lemma free_col_ok : forall l s f, (forall i a, nth_error l i = Some a -> exists n, heap s a = Some n /\ up n = nth_error l (S i)) -> NoDup l -> length l < f ->
  exists s', free_col f s (hd_error l) = Some s' /\ frame s s' /\ (forall z, In z l -> heap s' z = None) /\ (forall z, ~ In z l -> heap s' z = heap s z).
Proof.
  induction l as [|a l IH]; intros s f H ND Hf; (destruct f as [|f]; [lia|]); cbn [free_col hd_error].
  - exists s. split; [reflexivity|]. split; [apply frame_refl|]. split; [intros z []|reflexivity].
  - cbn [length] in Hf. destruct (H 0 a eq_refl) as (n & Hn & Un). rewrite Hn. unfold free. rewrite Hn. cbn [nth_error] in Un.
    replace (up n) with (hd_error l) by (rewrite Un; destruct l; reflexivity). inversion ND as [|x y Na ND']; subst.
    set (s1 := set_heap s (upd (heap s) a None)). destruct (IH s1 f) as (s' & E & F & P & Q); [|exact ND'|lia|].
    + intros i b Hb. destruct (H (S i) b Hb) as (nb & Hnb & Unb). exists nb. split; [|exact Unb]. cbn [s1 set_heap heap]. rewrite upd_other; [exact Hnb|].
      intros ->. apply Na. eapply nth_error_In; exact Hb.
    + exists s'. split; [exact E|]. split; [eapply frame_trans; [|exact F]; repeat split|]. split.
      * intros z [<-|Hz]; [|apply P; exact Hz]. destruct (in_dec Nat.eq_dec a l) as [Hi|Hi]; [apply P; exact Hi|]. rewrite Q by exact Hi. apply upd_same.
      * intros z Hz. rewrite Q by (intros F'; apply Hz; right; exact F'). apply upd_other. intros ->. apply Hz. left. reflexivity.
Qed.
Lemma free_rows_ok : forall h0 fr myfree B P c s evs f, Rep h0 fr (P ++ c :: B) -> (forall x, In x (c :: B) -> snd x <> []) -> fresh s = fr ->
  (forall z, In z (addrs (c :: B)) -> heap s z = h0 z) -> (forall z, ~ In z (addrs (c :: B)) -> heap s z = None) -> S (length B) < f ->
  exists s', free_rows f s (nth_error (snd c) 0) myfree evs = Some (s', evs ++ freed myfree (map fst B)) /\ (forall z, heap s' z = None) /\ fresh s' = fr.
Proof.
  intros h0 fr myfree. induction B as [|c' B IH]; intros P c s evs f R Hne Hfr H1 H2 Hf; (destruct f as [|f]; [lia|]).
  - destruct c as [d [|a l]]; [destruct (Hne (d, []) (or_introl eq_refl)); reflexivity|]. cbn [snd nth_error free_rows].
    destruct (rep_node _ _ P d (a :: l) [] 0 a R eq_refl) as (n & Hn & _ & Nn & _). rewrite H1 by (cbn [addrs flat_map snd]; ina). rewrite Hn, Nn.
    cbn [row flat_map hd_error].
    pose proof (rep_len _ _ _ R) as LA. rewrite addrs_mid, !app_length in LA.
    destruct (free_col_ok (a :: l) s (fuel s)) as (s' & E & (F1 & F2 & F3 & F4 & F5) & Q1 & Q2).
    + intros i b Hb. destruct (rep_node _ _ P d (a :: l) [] i b R Hb) as (nb & Hnb & _ & _ & _ & Ub & _). exists nb. split; [|exact Ub].
      rewrite H1; [exact Hnb|]. cbn [addrs flat_map snd]. rewrite app_nil_r. eapply nth_error_In; exact Hb.
    + exact (nd_one _ (d, a :: l) (r_nd _ _ _ R) ltac:(ina)).
    + unfold fuel. lia.
    + cbn [hd_error] in E. rewrite E. destruct f as [|f]; [lia|]. cbn [free_rows]. exists s'.
      split; [unfold freed; cbn [map filter]; destruct myfree; rewrite app_nil_r; reflexivity|]. split; [|congruence].
      intros z. destruct (in_dec Nat.eq_dec z (a :: l)) as [Hz|Hz]; [apply Q1; exact Hz|]. rewrite Q2 by exact Hz. apply H2. cbn [addrs flat_map snd]. rewrite app_nil_r. exact Hz.
  - destruct c as [d [|a l]]; [destruct (Hne (d, []) (or_introl eq_refl)); reflexivity|]. cbn [snd nth_error free_rows].
    destruct c' as [d' [|a' l']]; [destruct (Hne (d', []) (or_intror (or_introl eq_refl))); reflexivity|].
    destruct (rep_node _ _ P d (a :: l) ((d', a' :: l') :: B) 0 a R eq_refl) as (n & Hn & _ & Nn & _). rewrite H1 by (cbn [addrs flat_map snd]; ina). rewrite Hn, Nn.
    cbn [row flat_map nthrow snd nth_error app hd_error].
    assert (R' : Rep h0 fr ((P ++ [(d, a :: l)]) ++ (d', a' :: l') :: B)) by (rewrite <- app_assoc; exact R).
    destruct (rep_node _ _ _ d' (a' :: l') B 0 a' R' eq_refl) as (n' & Hn' & Dn' & _). rewrite (H1 a') by (cbn [addrs flat_map snd]; ina). rewrite Hn', Dn'.
    pose proof (rep_len _ _ _ R) as LA. rewrite addrs_mid, !app_length in LA.
    destruct (free_col_ok (a :: l) s (fuel s)) as (s' & E & (F1 & F2 & F3 & F4 & F5) & Q1 & Q2).
    + intros i b Hb. destruct (rep_node _ _ P d (a :: l) ((d', a' :: l') :: B) i b R Hb) as (nb & Hnb & _ & _ & _ & Ub & _). exists nb. split; [|exact Ub].
      rewrite H1; [exact Hnb|]. cbn [addrs flat_map snd]. apply in_or_app. left. eapply nth_error_In; exact Hb.
    + exact (nd_one _ (d, a :: l) (r_nd _ _ _ R) ltac:(ina)).
    + unfold fuel. lia.
    + cbn [hd_error] in E. rewrite E.
      pose proof (r_nd _ _ _ R) as ND. rewrite addrs_mid in ND. apply nodup_split in ND as (_ & ND & _). apply nodup_split in ND as (_ & _ & ND).
      destruct (IH (P ++ [(d, a :: l)]) (d', a' :: l') s' (if myfree && negb (N.eqb d' 0) then evs ++ [d'] else evs) f R') as (s2 & E2 & A2 & G2).
      * intros x Hx. apply Hne. right. exact Hx.
      * congruence.
      * intros z Hz. rewrite Q2; [apply H1; cbn [addrs flat_map snd]; apply in_or_app; right; exact Hz|]. intros F. apply (ND z F). exact Hz.
      * intros z Hz. destruct (in_dec Nat.eq_dec z (a :: l)) as [Hi|Hi]; [apply Q1; exact Hi|]. rewrite Q2 by exact Hi. apply H2. cbn [addrs flat_map snd] in *.
        intros F. change ((a :: l) ++ (a' :: l') ++ flat_map snd B) with ((a :: l) ++ addrs ((d', a' :: l') :: B)) in F. apply in_app_or in F. destruct F as [F|F]; [exact (Hi F)|exact (Hz F)].
      * cbn [length] in Hf. lia.
      * exists s2. split; [|auto]. cbn [snd nth_error] in E2. rewrite E2. f_equal. f_equal. unfold freed. cbn [map fst filter].
        destruct myfree; cbn [andb]; [|reflexivity]. destruct (N.eqb d' 0); cbn [negb]; [reflexivity|]. rewrite <- app_assoc. reflexivity.
Qed.
Lemma remove_all_ok : forall comp s hl tl myfree, Inv comp s hl tl ->
  exists s', remove_all s myfree = Some (s', freed myfree (map fst tl)) /\ Inv comp s' [] [].
Proof.
  intros comp s hl tl myfree I. unfold remove_all.
  assert (E : exists s1, free_rows (fuel s) s (bottom s) myfree [] = Some (s1, freed myfree (map fst tl)) /\ (forall z, heap s1 z = None)).
  { rewrite (v_bot _ _ _ _ I). pose proof (v_rep _ _ _ _ I) as R. destruct hl as [|x hl].
    - rewrite (inv_hl _ _ _ I) in *. exists s. split; [unfold fuel; cbn [hd_error free_rows map]; unfold freed; destruct myfree; reflexivity|].
      intros z. destruct (heap s z) eqn:Y; [|reflexivity]. exfalso. apply (proj1 (r_dom _ _ _ R z)); congruence.
    - pose proof (inv_len _ _ _ _ R (v_cols _ _ _ _ I)) as LL. cbn [length] in LL.
      destruct (free_rows_ok (heap s) (fresh s) myfree tl [] (0%N, x :: hl) s [] (fuel s) R) as (s1 & E1 & A1 & _); auto.
      + intros c [<-|Hc]; [discriminate|apply (v_cols _ _ _ _ I c Hc)].
      + intros z Hz. destruct (heap s z) eqn:Y; [|reflexivity]. exfalso. apply Hz. apply (r_dom _ _ _ R). congruence.
      + unfold fuel. unfold col in *. lia.
      + exists s1. split; [exact E1|exact A1]. }
  destruct E as (s1 & E1 & A1). rewrite E1. cbn [fst snd]. eexists. split; [reflexivity|].
  constructor; cbn [heap fresh top bottom height size]; try reflexivity; try (intros c []); try exact Logic.I; [|cbn; lia].
  constructor.
  - intros i r1 a r2 H. destruct i, r1; discriminate.
  - intros c [<-|[]] i a H. destruct i; discriminate.
  - intros a. rewrite A1. cbn. tauto.
  - constructor.
  - intros a [].
Qed.

(** one call *)
Lemma at_one : forall c k Lo Mid Hi, Cut c k Lo Mid Hi -> Mid = [] \/ exists x, Mid = [x].
Proof. intros c k Lo Mid Hi C. pose proof (c_one _ _ _ _ _ C) as H. destruct Mid as [|x [|y Mid]]; [auto|eauto|cbn [length] in H; lia]. Qed.
Theorem step_ok : forall comp compk, ordered comp compk -> forall s hl tl o, Inv comp s hl tl ->
  exists s' hl' tl', step comp compk s o = Some (s', snd (sstep comp compk (map fst tl) o)) /\ Inv comp s' hl' tl' /\ map fst tl' = fst (sstep comp compk (map fst tl) o).
Proof.
  intros comp compk O s hl tl o I. pose proof (v_rep _ _ _ _ I) as R.
  pose proof (inv_len _ _ _ _ R (v_cols _ _ _ _ I)) as LL.
  assert (CUT : forall k, exists Lo Mid Hi, tl = Lo ++ Mid ++ Hi /\ Cut compk k Lo Mid Hi).
  { intros k. apply (cut_exists comp compk k tl); [intros a b; apply (o_key_before _ _ O k a b)|apply (v_sorted _ _ _ _ I)]. }
  destruct o as [d bits|k|k myfree|myfree| | | |myfree]; cbn [step sstep].
  - destruct (insert_ok comp compk s hl tl d bits O I) as (s' & hl' & tl' & I' & H). exists s', hl', tl'.
    destruct (existsb (fun x => comp d x =? 0)%Z (map fst tl)).
    + destruct H as (E & M). rewrite E. cbn [fst snd data_of]. auto.
    + destruct H as (m & E & D & M). rewrite E. cbn [fst snd]. rewrite D. auto.
  - destruct (CUT k) as (Lo & Mid & Hi & Et & C). rewrite (find_ok comp compk s hl tl k Lo Mid Hi I Et C).
    destruct (cut_spec compk k Lo Mid Hi C) as (S1 & S2 & S3). rewrite <- Et in S1, S2, S3. rewrite S1, S2, S3.
    assert (Hne : forall c, In c tl -> snd c <> []) by (intros c Hc; apply (v_cols _ _ _ _ I c Hc)).
    assert (R1 : Rep (heap s) (fresh s) ([(0%N, hl)] ++ Lo ++ (Mid ++ Hi))) by (clear -R Et; rewrite Et in R; exact R).
    assert (R2 : Rep (heap s) (fresh s) (((0%N, hl) :: Lo) ++ Mid ++ Hi)) by exact R1.
    assert (R3 : Rep (heap s) (fresh s) (((0%N, hl) :: Lo ++ Mid) ++ Hi ++ [])) by (clear -R1; rewrite app_nil_r; cbn [app] in *; rewrite <- app_assoc; exact R1).
    rewrite (data_first s (fresh s) _ Mid Hi R2) by (intros c Hc; apply Hne; rewrite Et; ina).
    rewrite (data_last s (fresh s) _ Lo (Mid ++ Hi) R1) by (intros c Hc; apply Hne; rewrite Et; ina).
    rewrite (data_first s (fresh s) _ Hi [] R3) by (intros c Hc; apply Hne; rewrite Et; ina).
    exists s, hl, tl. destruct (at_one _ _ _ _ _ C) as [->|(x & ->)].
    + cbn [row flat_map hd_error map]. split; [|split; [exact I|reflexivity]]. unfold fuel. reflexivity.
    + destruct x as [d [|a l]]; [destruct (Hne (d, [])); [rewrite Et; ina|reflexivity]|].
      assert (Lt : length tl = length Lo + S (length Hi)) by (rewrite Et, !app_length; reflexivity).
      assert (B : backward (fuel s) s (hd_error (row 0 [(d, a :: l)])) = Some (d :: rev (map fst Lo))).
      { pose proof (backward_ok s (fresh s) hl) as BO. specialize (BO ltac:(intros ->; rewrite (inv_hl _ _ _ I) in Et; destruct Lo; discriminate)).
        specialize (BO ((d, a :: l) :: rev Lo) Hi (fuel s)). cbn [snd nth_error map fst rev] in BO. rewrite rev_involutive, <- app_assoc, map_rev in BO.
        apply BO; [exact R2| |cbn [length]; rewrite rev_length; unfold fuel, col in *; lia].
        intros c [<-|Hc]; [discriminate|]. apply Hne. rewrite Et. apply in_rev in Hc. ina. }
      assert (F : forward (fuel s) s (hd_error (row 0 [(d, a :: l)])) = Some (d :: map fst Hi)).
      { pose proof (forward_ok s (fresh s) ((d, a :: l) :: Hi) ((0%N, hl) :: Lo) (fuel s) R2) as FO. apply FO.
        - intros c [<-|Hc]; [discriminate|]. apply Hne. rewrite Et. ina.
        - cbn [length]. unfold fuel, col in *. lia. }
      match goal with |- context [backward ?f ?s ?m] => replace (backward f s m) with (Some (d :: rev (map fst Lo))) by (symmetry; exact B) end.
      match goal with |- context [forward ?f ?s ?m] => replace (forward f s m) with (Some (d :: map fst Hi)) by (symmetry; exact F) end.
      cbn [map fst hd_error snd]. split; [reflexivity|]. split; [exact I|reflexivity].
  - destruct (CUT k) as (Lo & Mid & Hi & Et & C). unfold remove. rewrite (find_ok comp compk s hl tl k Lo Mid Hi I Et C). cbn [fst snd].
    destruct (cut_spec compk k Lo Mid Hi C) as (S1 & S2 & S3). rewrite <- Et in S1, S2, S3. rewrite S1, S2, S3.
    destruct (at_one _ _ _ _ _ C) as [->|(x & ->)].
    + cbn [row flat_map hd_error map]. exists s, hl, tl. auto.
    + destruct x as [d [|a l]].
      { exfalso. apply (v_cols _ _ _ _ I (d, [])); [rewrite Et; ina|reflexivity]. }
      assert (I2 : Inv comp s hl (Lo ++ (d, a :: l) :: Hi)) by (clear -I Et; rewrite Et in I; exact I).
      destruct (remove_node_ok comp s hl Lo Hi d a l myfree I2) as (s' & hl' & E & I').
      cbn [row flat_map nthrow snd nth_error app hd_error map fst]. rewrite E. cbn [fst snd]. exists s', hl', (Lo ++ Hi). rewrite map_app. auto.
  - unfold pop. rewrite (getlist_ok _ _ _ _ I). destruct tl as [|[d [|a l]] tl].
    + cbn [row flat_map hd_error map]. exists s, hl, []. auto.
    + exfalso. apply (v_cols _ _ _ _ I (d, [])); [left; reflexivity|reflexivity].
    + cbn [row flat_map nthrow snd nth_error app hd_error map fst].
      destruct (rep_node _ _ [(0%N, hl)] d (a :: l) tl 0 a R eq_refl) as (n & Hn & Dn & _). rewrite Hn.
      destruct (remove_node_ok comp s hl [] tl d a l myfree I) as (s' & hl' & E & I'). rewrite E, Dn. cbn [fst snd]. exists s', hl', tl. auto.
  - unfold peek. rewrite (getlist_ok _ _ _ _ I). exists s, hl, tl. destruct tl as [|[d [|a l]] tl].
    + cbn [row flat_map hd_error map]. auto.
    + exfalso. apply (v_cols _ _ _ _ I (d, [])); [left; reflexivity|reflexivity].
    + cbn [row flat_map nthrow snd nth_error app hd_error map fst].
      destruct (rep_node _ _ [(0%N, hl)] d (a :: l) tl 0 a R eq_refl) as (n & Hn & Dn & _). rewrite Hn, Dn. auto.
  - exists s, hl, tl. rewrite (v_size _ _ _ _ I), map_length. auto.
  - rewrite (getlist_ok _ _ _ _ I). exists s, hl, tl.
    rewrite (forward_ok s (fresh s) tl [(0%N, hl)] (fuel s) R); [auto|intros c Hc; apply (v_cols _ _ _ _ I c Hc)|unfold fuel; lia].
  - destruct (remove_all_ok comp s hl tl myfree I) as (s' & E & I'). rewrite E. exists s', [], []. auto.
Qed.

Theorem run_ok : forall comp compk, ordered comp compk -> forall os s hl tl, Inv comp s hl tl ->
  exists s' hl' tl', run comp compk s os = Some (s', snd (srun comp compk (map fst tl) os)) /\ Inv comp s' hl' tl' /\ map fst tl' = fst (srun comp compk (map fst tl) os).
Proof.
  intros comp compk O. induction os as [|o os IH]; intros s hl tl I; cbn [run srun].
  - exists s, hl, tl. auto.
  - destruct (step_ok comp compk O s hl tl o I) as (s1 & hl1 & tl1 & E1 & I1 & M1). rewrite E1. cbn [fst snd].
    destruct (IH s1 hl1 tl1 I1) as (s2 & hl2 & tl2 & E2 & I2 & M2). rewrite E2. cbn [fst snd]. rewrite M1 in *.
    destruct (sstep comp compk (map fst tl) o) as (l1, r1). cbn [fst snd] in *. destruct (srun comp compk l1 os) as (l2, rs). cbn [fst snd] in *.
    exists s2, hl2, tl2. auto.
Qed.
(** the list is in order, no taller than allowed and the heap holds nothing when it is empty *)
Theorem state_ok : forall comp compk, ordered comp compk -> forall os s, (exists rs, run comp compk init os = Some (s, rs)) ->
  let l := fst (srun comp compk [] os) in
  sorted comp l /\ height s <= max_height /\ (l = [] -> forall a, heap s a = None).
Proof.
  intros comp compk O os s (rs & E). destruct (run_ok comp compk O os init [] [] (inv_init comp)) as (s' & hl & tl & E' & I & M).
  assert (s' = s) as -> by congruence. cbn [map] in M. cbv zeta. rewrite <- M. repeat split.
  - apply (v_sorted _ _ _ _ I).
  - rewrite (v_height _ _ _ _ I). apply (v_max _ _ _ _ I).
  - intros X a. apply map_eq_nil in X. subst tl. pose proof (v_rep _ _ _ _ I) as R. rewrite (v_empty _ _ _ _ I eq_refl) in R.
    destruct (heap s a) eqn:Y; [|reflexivity]. exfalso. apply (proj1 (r_dom _ _ _ R a)); congruence.
Qed.

Lemma in_ins : forall comp d l x, In x (ins comp d l) <-> x = d \/ In x l.
Proof.
  intros comp d. induction l as [|y l IH]; intros x; cbn [ins In]; [split; intros [H|[]]; auto|].
  destruct (comp d y <? 0)%Z; cbn [In]; [|rewrite IH]; intuition congruence.
Qed.
Theorem members_insert : forall comp compk l d bits x,
  (In x (fst (sstep comp compk l (Insert d bits))) <-> In x l \/ (x = d /\ forall y, In y l -> comp d y <> 0%Z)).
Proof.
  intros comp compk l d bits x. cbn [sstep]. destruct (existsb (fun y => comp d y =? 0)%Z l) eqn:E; cbn [fst].
  - split; [auto|]. intros [H|(-> & H)]; [exact H|]. apply existsb_exists in E as (y & Hy & Ey). exfalso. apply (H y Hy). lia.
  - rewrite in_ins. split; [|tauto]. intros [->|H]; [|auto]. right. split; [reflexivity|]. intros y Hy F.
    assert (X : existsb (fun y => comp d y =? 0)%Z l = true); [|congruence]. apply existsb_exists. exists y. split; [exact Hy|]. lia.
Qed.
Theorem members_remove : forall comp compk l k myfree x,
  In x (fst (sstep comp compk l (Remove k myfree))) <-> In x l /\ compk k x <> 0%Z.
Proof.
  intros comp compk l k myfree x. cbn [sstep]. destruct (at_key compk k l) as [|y r] eqn:E; cbn [fst].
  - split; [|tauto]. intros H. split; [exact H|]. intros F. assert (X : In x (at_key compk k l)) by (apply filter_In; split; [exact H|lia]).
    rewrite E in X. contradiction.
  - rewrite in_app_iff. unfold before, after. rewrite !filter_In. split; [intros [(A & B)|(A & B)]; split; auto; lia|].
    intros (A & B). destruct (Z.lt_ge_cases 0 (compk k x)); [left|right]; split; auto; lia.
Qed.
Theorem ambiguous : exists comp compk b b',
  (forall k a b, (comp a b < 0 -> compk k a < 0 -> compk k b < 0)%Z) /\
  option_map snd (run comp compk init [Insert 10 []; Insert 11 b; Find 1]) <> option_map snd (run comp compk init [Insert 10 []; Insert 11 b'; Find 1]).
Proof.
  exists (fun a b => Z.of_N a - Z.of_N b)%Z, (fun k a => Z.of_N k - Z.of_N (a / 10))%Z, [], [true]. split; [|vm_compute; discriminate].
  intros k a b H1 H2. assert (a < b)%N by lia. pose proof (N.div_le_mono a b 10 ltac:(discriminate) ltac:(lia)). lia.
Qed.
