(** Lemmas: what the calls keep. *)
From Coq Require Import Arith NArith List Bool Lia ZifyBool ZifyNat.
From Verif.Logs Require Import Model Spec Proofs.
Import ListNotations.

Definition ok_outs (n : nat) (os : list outlet) : Prop :=
  Forall (fun o => target o < n /\ (forall f, cond o = Some f -> honest f)) os /\ NoDup (map target os).
Definition inv (ss : list stream) : Prop := NoDup (map name ss) /\ forall i, ok_outs (length ss) (outs (get ss i)).
Lemma inv_closed : forall ss, inv ss -> closed ss.
Proof. intros ss [_ H] i o I. destruct (H i) as [F _]. rewrite Forall_forall in F. now apply F. Qed.
Lemma names_ext : forall a b, length a = length b -> (forall i, name (get a i) = name (get b i)) -> map name a = map name b.
Proof.
  intros a b L H. apply (nth_ext _ _ (name dead) (name dead)); [now rewrite !map_length|]. intros i _. rewrite !map_nth. apply H.
Qed.
Lemma inv_alike : forall a b, alike a b -> inv a -> inv b.
Proof.
  intros a b A [N O]. split.
  - rewrite <- (names_ext a b); [exact N|apply A|]. intro i. now destruct (proj2 A i).
  - intro i. destruct (proj2 A i) as (_ & _ & _ & _ & _ & E). rewrite <- E, <- (proj1 A). apply O.
Qed.
Lemma inv_upd : forall ss i s, inv ss -> i < length ss -> name s = name (get ss i) -> ok_outs (length ss) (outs s) -> inv (upd ss i s).
Proof.
  intros ss i s [N O] I E K. split.
  - rewrite (names_ext (upd ss i s) ss); [exact N|now apply upd_length|]. intro k. rewrite get_upd by exact I. destruct (Nat.eqb_spec k i) as [->|]; [exact E|reflexivity].
  - intro k. rewrite get_upd, upd_length by exact I. destruct (k =? i); auto.
Qed.
Lemma ok_outs_more : forall n m os, n <= m -> ok_outs n os -> ok_outs m os.
Proof. intros n m os L [F N]. split; [|exact N]. eapply Forall_impl; [|exact F]. cbn. intros o [T H]. split; [lia|exact H]. Qed.
Lemma ok_outs_nil : forall n, ok_outs n []. Proof. intro n. split; constructor. Qed.
Lemma get_app : forall ss s i, get (ss ++ [s]) i = if i =? length ss then s else get ss i.
Proof.
  intros ss s i. unfold get. destruct (Nat.eqb_spec i (length ss)) as [->|N].
  - rewrite app_nth2 by lia. now rewrite Nat.sub_diag.
  - destruct (Nat.lt_ge_cases i (length ss)) as [L|L]; [now apply app_nth1|]. rewrite app_nth2 by lia. rewrite (nth_overflow ss) by lia.
    apply nth_overflow. cbn. lia.
Qed.
Lemma inv_app : forall ss s, inv ss -> ~ In (name s) (map name ss) -> outs s = [] -> inv (ss ++ [s]).
Proof.
  intros ss s [N O] NI E. split.
  - rewrite map_app. cbn [map]. 
    rewrite <- (rev_involutive (map name ss ++ [name s])). apply NoDup_rev. rewrite rev_app_distr. cbn. constructor.
    + intro I. apply in_rev in I. now apply NI.
    + now apply NoDup_rev.
  - intro i. rewrite get_app, app_length. cbn [length]. destruct (i =? length ss).
    + rewrite E. apply ok_outs_nil.
    + eapply ok_outs_more; [|apply O]. lia.
Qed.
Lemma lookup_spec : forall ss n, match lookup ss n with Some i => named ss i n | None => ~ In n (map name ss) end.
Proof.
  intros ss n. unfold lookup.
  assert (G : forall ss k, match lookup_from k ss n with Some i => k <= i /\ named ss (i - k) n | None => ~ In n (map name ss) end).
  { clear ss. induction ss as [|s ss IH]; intro k; cbn [lookup_from map]; [intros []|].
    destruct (eqb_bytes (name s) n) eqn:E.
    - apply eqb_bytes_iff in E. split; [lia|]. rewrite Nat.sub_diag. split; [cbn; lia|exact E].
    - specialize (IH (S k)). destruct (lookup_from (S k) ss n) as [i|].
      + destruct IH as (L & B & E'). split; [lia|]. replace (i - k) with (S (i - S k)) by lia. split; [cbn; lia|exact E'].
      + intros [<-|I]; [|now apply IH]. pose proof (proj2 (eqb_bytes_iff (name s) (name s)) eq_refl). congruence. }
  specialize (G ss 0). destruct (lookup_from 0 ss n) as [i|]; [|exact G]. destruct G as [_ G]. now rewrite Nat.sub_0_r in G.
Qed.
Lemma names_inj : forall ss i j, NoDup (map name ss) -> i < length ss -> j < length ss -> name (get ss i) = name (get ss j) -> i = j.
Proof.
  intros ss i j N I J E. rewrite (NoDup_nth _ (name dead)) in N. apply N; rewrite ?map_length; auto. rewrite !map_nth. exact E.
Qed.

Definition sound (ss : list stream) : Prop := coherent ss /\ forall i, Acc (up ss) i.
Lemma remat_inv : forall d ss ss', inv ss -> rematerialize d ss = Some ss' -> alike ss ss' /\ inv ss' /\ sound ss'.
Proof.
  intros d ss ss' I H. destruct (remat_ok d ss ss' (inv_closed _ I) H) as (A & C & W). split; [exact A|]. split; [now apply (inv_alike ss)|now split].
Qed.

(** adding *)
Lemma find_outlet_none : forall ss i j, List.find (fun o => eqb_bytes (name (get ss (target o))) (name (get ss j))) (outs (get ss i)) = None ->
  ~ In j (map target (outs (get ss i))).
Proof.
  intros ss i j H I. apply in_map_iff in I. destruct I as (o & T & I). apply (find_none _ _ H) in I. cbn in I. rewrite T in I.
  pose proof (proj2 (eqb_bytes_iff (name (get ss j)) (name (get ss j))) eq_refl). congruence.
Qed.
Lemma add_ok : forall d ss i j c ss', inv ss -> i < length ss -> j < length ss -> (forall f, c = Some f -> honest f) -> add_stream d ss i j c = Some ss' ->
  inv ss' /\ (sound ss -> sound ss') /\
  (ss' = ss /\ In j (map target (outs (get ss i))) \/
   sound ss' /\ alike (upd ss i (with_outs (mkoutlet j c :: outs (get ss i)) (get ss i))) ss').
Proof.
  intros d ss i j c ss' I Li Lj Hc H. unfold add_stream in H. destruct (List.find _ _) as [o|] eqn:E.
  - destruct (Nat.eqb_spec (target o) j) as [T|]; [|discriminate H]. injection H as <-. split; [exact I|]. split; [auto|]. left. split; [reflexivity|].
    apply find_some in E. rewrite <- T. apply in_map, E.
  - apply find_outlet_none in E. apply remat_inv in H.
    + destruct H as (A & I' & S). auto.
    + apply inv_upd; auto. cbn [with_outs outs]. destruct I as [N O]. destruct (O i) as [F D]. split; [constructor; [now split|exact F]|]. now constructor.
Qed.
(** removing *)
Lemma without_incl : forall ss n os o, In o (without ss n os) -> In o os.
Proof. intros ss n os o. induction os as [|x os IH]; cbn [without]; [auto|]. destruct (eqb_bytes _ _); [now right|]. intros [<-|I]; [now left|right; auto]. Qed.
Lemma without_ok : forall ss n m os, ok_outs m os -> ok_outs m (without ss n os).
Proof.
  intros ss n m os [F D]. split.
  - rewrite Forall_forall in *. intros o I. apply F. now apply without_incl in I.
  - clear F. induction os as [|x os IH]; cbn [without]; [constructor|]. inversion D as [|? ? NI D']; subst. destruct (eqb_bytes _ _); [exact D'|].
    cbn [map]. constructor; [|auto]. intro I. apply NI. apply in_map_iff in I. destruct I as (o & T & I). apply without_incl in I. apply in_map_iff. now exists o.
Qed.

(** finding *)
Definition grows (ss ss' : list stream) : Prop := length ss <= length ss' /\ forall k, k < length ss -> same (get ss k) (get ss' k).
Lemma grows_refl : forall ss, grows ss ss. Proof. split; [lia|intros; apply same_refl]. Qed.
Lemma grows_trans : forall a b c, grows a b -> grows b c -> grows a c.
Proof. intros a b c [L H] [L' H']. split; [lia|]. intros k K. eapply same_trans; [now apply H|]. apply H'. lia. Qed.
Lemma alike_grows : forall a b, alike a b -> grows a b.
Proof. intros a b [L H]. split; [lia|auto]. Qed.
Definition boot (n : bytes) : flags := if eqb_bytes n n_debug then BOOT_DEBUG_FLAGS else if eqb_bytes n n_stderr then BOOT_STDERR_FLAGS else only_enabled.
Lemma parent_shorter : forall n p, parent n = Some p -> length p < length n.
Proof.
  induction n as [|x n IH]; intros p H; [discriminate H|]. cbn [parent] in H. destruct (parent n) as [q|] eqn:E.
  - injection H as <-. cbn. specialize (IH q eq_refl). lia.
  - destruct (x =? 47)%N; [|discriminate H]. injection H as <-. cbn. lia.
Qed.
Definition makes_new (ss ss' : list stream) (n : bytes) (i : nat) : Prop :=
  i = length ss /\ flg (get ss' i) = boot n /\ writer (get ss' i) = false /\ type (get ss' i) = None /\ plain (get ss' i) = true /\
  match parent n with
  | None => outs (get ss' i) = []
  | Some p => exists j, outs (get ss' i) = [mkoutlet j None] /\ named ss' j p
  end.
Lemma find_ok : forall k d ss n ss' i, inv ss -> find k d ss n = Some (ss', i) ->
  inv ss' /\ (sound ss -> sound ss') /\ grows ss ss' /\ named ss' i n /\ (~ In n (map name ss) -> sound ss' /\ makes_new ss ss' n i) /\ (In n (map name ss) -> ss' = ss).
Proof.
  induction k as [|k IH]; intros d ss n ss' i I H; cbn [find] in H; pose proof (lookup_spec ss n) as LS; destruct (lookup ss n) as [i0|].
  1,3: injection H as <- <-; split; [exact I|]; split; [auto|]; split; [apply grows_refl|]; split; [exact LS|]; split; [|auto];
    intro N; exfalso; apply N; destruct LS as [L E]; rewrite <- E; apply in_map, get_in, L.
  all: assert (I0 : inv (ss ++ [fresh n None false])) by (apply inv_app; auto);
    destruct (rematerialize d (ss ++ [fresh n None false])) as [s1|] eqn:R1; [cbn [bind] in H|discriminate H];
    destruct (remat_inv _ _ _ I0 R1) as (A1 & I1 & _);
    assert (L1 : length s1 = S (length ss)) by (rewrite <- (proj1 A1), app_length; cbn; lia);
    assert (G1 : get s1 (length ss) = get s1 (length ss)) by reflexivity;
    set (s2 := if eqb_bytes n n_debug then upd s1 (length ss) (with_flags BOOT_DEBUG_FLAGS (get s1 (length ss)))
               else if eqb_bytes n n_stderr then upd s1 (length ss) (with_flags BOOT_STDERR_FLAGS (get s1 (length ss))) else s1) in H;
    assert (S1 : same (fresh n None false) (get s1 (length ss))) by (destruct (proj2 A1 (length ss)) as [SA SB]; rewrite get_app, Nat.eqb_refl in SA, SB; now split);
    destruct S1 as (Sn & Sf & Sw & St & Sp & So);
    assert (I2 : inv s2) by (unfold s2; destruct (eqb_bytes n n_debug); [|destruct (eqb_bytes n n_stderr); [|exact I1]];
      (apply inv_upd; [exact I1|lia|reflexivity|apply I1]));
    assert (L2 : length s2 = S (length ss)) by (unfold s2; destruct (eqb_bytes n n_debug); [|destruct (eqb_bytes n n_stderr); [|exact L1]]; rewrite upd_length; lia);
    assert (K2 : forall j, j <> length ss -> get s2 j = get s1 j) by
      (intros j J; unfold s2; destruct (eqb_bytes n n_debug); [|destruct (eqb_bytes n n_stderr); [|reflexivity]];
       rewrite get_upd by lia; destruct (Nat.eqb_spec j (length ss)); [contradiction|reflexivity|contradiction|reflexivity]);
    assert (F2 : name (get s2 (length ss)) = n /\ flg (get s2 (length ss)) = boot n /\ writer (get s2 (length ss)) = false /\ type (get s2 (length ss)) = None /\ plain (get s2 (length ss)) = true /\ outs (get s2 (length ss)) = []) by
      (unfold s2, boot; destruct (eqb_bytes n n_debug); [|destruct (eqb_bytes n n_stderr)]; rewrite ?get_upd by lia; rewrite ?Nat.eqb_refl;
       cbn [with_flags name flg writer type plain outs]; rewrite <- ?Sn, <- ?Sf, <- ?Sw, <- ?St, <- ?Sp, <- ?So; repeat split);
    assert (G2 : grows ss s2) by (split; [lia|]; intros j J; rewrite K2 by lia;
      destruct (proj2 A1 j) as [SA SB]; rewrite get_app in SA, SB; replace (j =? length ss) with false in SA, SB by lia; now split);
    clearbody s2; destruct F2 as (Fn & Ff & Fw & Ft & Fp & Fo);
    destruct (parent n) as [p|] eqn:EP.
  - discriminate H.
  - cbn [bind] in H. destruct (rematerialize d s2) as [s3|] eqn:R3; [cbn [bind] in H|discriminate H]. injection H as <- <-.
    destruct (remat_inv _ _ _ I2 R3) as (A3 & I3 & S3). split; [exact I3|]. split; [auto|]. split; [apply (grows_trans _ s2); [exact G2|now apply alike_grows]|].
    destruct (proj2 A3 (length ss)) as (E1 & E2 & E3 & E4 & E5 & E6).
    split; [split; [rewrite <- (proj1 A3), L2; apply Nat.lt_succ_diag_r|now rewrite <- E1]|]. split; [|intro B; now apply LS in B]. intros _. split; [exact S3|].
    unfold makes_new. rewrite EP, <- E2, <- E3, <- E4, <- E5, <- E6. auto 10.
  - destruct (find k d s2 p) as [[s3 j]|] eqn:Fk; [cbn [bind fst snd] in H|discriminate H].
    destruct (IH _ _ _ _ _ I2 Fk) as (I3 & _ & G3 & [Lj Ej] & _).
    destruct (add_stream d s3 (length ss) j None) as [s4|] eqn:AS; [cbn [bind] in H|discriminate H].
    assert (L3 : length ss < length s3) by (destruct G3; lia).
    destruct (add_ok d s3 (length ss) j None s4 I3 L3 Lj ltac:(discriminate) AS) as (I4 & _ & X4).
    destruct (proj2 G3 (length ss) ltac:(lia)) as (D1 & D2 & D3 & D4 & D5 & D6).
    destruct X4 as [[-> B]|[S4 A4]]; [exfalso; rewrite <- D6, Fo in B; exact B|].
    destruct (rematerialize d s4) as [s5|] eqn:R5; [cbn [bind] in H|discriminate H]. injection H as <- <-.
    destruct (remat_inv _ _ _ I4 R5) as (A5 & I5 & S5). split; [exact I5|]. split; [auto|].
    pose proof (alike_trans _ _ _ A4 A5) as A6.
    assert (L5 : length s5 = length s3) by (rewrite <- (proj1 A6); now apply upd_length).
    assert (G5 : forall m, m <> length ss -> same (get s3 m) (get s5 m)).
    { intros m Hm. pose proof (proj2 A6 m) as Q. rewrite get_upd in Q by exact L3. destruct (Nat.eqb_spec m (length ss)); [contradiction|exact Q]. }
    split.
    { split; [rewrite L5; lia|]. intros m Hm. apply (same_trans _ (get s2 m)); [now apply G2|]. apply (same_trans _ (get s3 m)); [apply G3; lia|apply G5; lia]. }
    assert (Nj : j <> length ss).
    { intro B. subst j. apply parent_shorter in EP. rewrite <- D1, Fn in Ej. subst p. lia. }
    pose proof (proj2 A6 (length ss)) as (E1 & E2 & E3 & E4 & E5 & E6). rewrite get_upd, Nat.eqb_refl in E1, E2, E3, E4, E5, E6 by exact L3.
    cbn [with_outs name flg writer type plain outs] in E1, E2, E3, E4, E5, E6.
    split; [split; [rewrite L5; exact L3|now rewrite <- E1, <- D1]|]. split; [|intro B; now apply LS in B]. intros _. split; [exact S5|].
    unfold makes_new. rewrite EP, <- E2, <- E3, <- E4, <- E5, <- E6, <- D2, <- D3, <- D4, <- D5, <- D6, Fo. split; [reflexivity|]. split; [exact Ff|]. split; [exact Fw|]. split; [exact Ft|]. split; [exact Fp|].
    exists j. split; [reflexivity|]. split; [rewrite L5; exact Lj|]. destruct (G5 j Nj) as [Q _]. now rewrite <- Q.
  - cbn [bind] in H. destruct (rematerialize d s2) as [s3|] eqn:R3; [cbn [bind] in H|discriminate H]. injection H as <- <-.
    destruct (remat_inv _ _ _ I2 R3) as (A3 & I3 & S3). split; [exact I3|]. split; [auto|]. split; [apply (grows_trans _ s2); [exact G2|now apply alike_grows]|].
    destruct (proj2 A3 (length ss)) as (E1 & E2 & E3 & E4 & E5 & E6).
    split; [split; [rewrite <- (proj1 A3), L2; apply Nat.lt_succ_diag_r|now rewrite <- E1]|]. split; [|intro B; now apply LS in B]. intros _. split; [exact S3|].
    unfold makes_new. rewrite EP, <- E2, <- E3, <- E4, <- E5, <- E6. auto 10.
Qed.
