(** Lemmas: what each call changes. *)
From Coq Require Import Arith NArith List Bool Lia ZifyBool ZifyNat.
From Verif.Logs Require Import Model Spec Proofs Proofs2 Proofs3 Proofs4 Proofs5.
Import ListNotations.

Lemma alike_only : forall ss ss' i s, i < length ss -> alike (upd ss i s) ss' -> name s = name (get ss i) -> writer s = writer (get ss i) -> type s = type (get ss i) ->
  only ss ss' i (flg s) (plain s) (outs s).
Proof.
  intros ss ss' i s L [Le A] N W T. rewrite upd_length in Le by exact L. pose proof (A i) as Ai. rewrite get_upd, Nat.eqb_refl in Ai by exact L.
  destruct Ai as (An & Af & Aw & At & Ap & Ao). split; [auto|]. split; [congruence|]. split; [congruence|]. split; [congruence|]. split; [auto|]. split; [auto|]. split; [auto|].
  intros k K. specialize (A k). rewrite get_upd in A by exact L. destruct (Nat.eqb_spec k i); [contradiction|exact A].
Qed.
Lemma nothing_refl : forall ss, nothing ss ss. Proof. intro ss. split; [reflexivity|]. intro k. apply same_refl. Qed.
Lemma there_some : forall (st : state) i d o st', match o with Remove k _ | Remove_all k | Set_flags k _ | Set_plain k _ => k = i | Add k _ | Add_filtered k _ _ => k = i | _ => False end ->
  step d st o = Some st' -> i < length (streams st).
Proof.
  intros st i d o st' E H. apply there_iff. destruct o; try (destruct E; fail); subst; cbn [step] in H; destruct (there (streams st) i); (reflexivity || discriminate H).
Qed.
Lemma add_step : forall d st i j c st', inv (streams st) -> (forall f, c = Some f -> honest f) ->
  step d st (match c with Some f => Add_filtered i j f | None => Add i j end) = Some st' -> types st' = types st /\
  (edge (streams st) i j -> nothing (streams st) (streams st')) /\
  (~ edge (streams st) i j -> only (streams st) (streams st') i (flg (get (streams st) i)) (plain (get (streams st) i)) (mkoutlet j c :: outs (get (streams st) i))).
Proof.
  intros d st i j c st' I Hc H.
  assert (H' : (if there (streams st) i && there (streams st) j then bind (add_stream d (streams st) i j c) (fun ss => Some (mkstate ss (types st))) else None) = Some st') by (destruct c; exact H).
  clear H. destruct (there (streams st) i && there (streams st) j) eqn:T; [|discriminate H']. apply andb_prop in T. destruct T as [T1 T2]. apply there_iff in T1, T2.
  destruct (add_stream d (streams st) i j c) as [s1|] eqn:E; [|discriminate H']. cbn [bind] in H'. injection H' as <-. cbn [streams types]. split; [reflexivity|].
  destruct (add_ok d (streams st) i j c s1 I T1 T2 Hc E) as (_ & _ & [[-> X]|[_ X]]).
  - split; [intros _; apply nothing_refl|]. intro N. exfalso. apply N. apply in_map_iff in X. destruct X as (o & To & Io). now exists o.
  - split; [|intros _; now apply (alike_only (streams st) s1 i _ T1 X)]. intros (o & Io & To). exfalso. unfold add_stream in E.
    destruct (List.find _ _) as [o'|] eqn:Fi.
    + destruct (target o' =? j); [|discriminate E]. injection E as <-. pose proof (proj2 X i) as Si. rewrite get_upd, Nat.eqb_refl in Si by exact T1.
      destruct Si as (_ & _ & _ & _ & _ & So). cbn [with_outs outs] in So. apply (f_equal (@length outlet)) in So. cbn in So. lia.
    + apply find_outlet_none in Fi. apply Fi. rewrite <- To. now apply in_map.
Qed.
Lemma without_in : forall ss n os, NoDup (map target os) -> NoDup (map name ss) -> Forall (fun o => target o < length ss) os ->
  forall o, In o (without ss n os) <-> In o os /\ name (get ss (target o)) <> n.
Proof.
  intros ss n os D N F o. induction os as [|x os IH]; [cbn; tauto|]. cbn [map] in D. inversion D as [|? ? NI D']; subst. inversion F as [|? ? Fx Fo]; subst.
  cbn [without]. destruct (eqb_bytes (name (get ss (target x))) n) eqn:E.
  - apply eqb_bytes_iff in E. split.
    + intro I. split; [now right|]. intro E'. apply NI. rewrite Forall_forall in Fo. rewrite <- E' in E. apply (names_inj ss _ _ N Fx (Fo o I)) in E. rewrite E. now apply in_map.
    + intros [[<-|I] Ne]; [contradiction|exact I].
  - assert (Ex : name (get ss (target x)) <> n) by (intro B; apply eqb_bytes_iff in B; congruence). cbn [In]. rewrite (IH D' Fo). split.
    + intros [<-|[I Ne]]; auto.
    + intros [[<-|I] Ne]; auto.
Qed.
Lemma remove_step : forall d st i n st', inv (streams st) -> step d st (Remove i n) = Some st' -> types st' = types st /\
  exists os, only (streams st) (streams st') i (flg (get (streams st) i)) (plain (get (streams st) i)) os /\
    forall o, In o os <-> In o (outs (get (streams st) i)) /\ name (get (streams st) (target o)) <> n.
Proof.
  intros d st i n st' I H. pose proof (there_some st i d (Remove i n) st' eq_refl H) as T. cbn [step] in H. rewrite (proj2 (there_iff _ _) T) in H.
  destruct (remove_stream d (streams st) i n) as [s1|] eqn:E; [|discriminate H]. cbn [bind] in H. injection H as <-. cbn [streams types]. split; [reflexivity|].
  destruct (remove_ok _ _ _ _ _ I T E) as (_ & _ & X). exists (without (streams st) n (outs (get (streams st) i))). split; [now apply (alike_only (streams st) s1 i _ T X)|].
  destruct I as [N O]. destruct (O i) as [F D]. apply without_in; [exact D|exact N|]. rewrite Forall_forall in *. intros o Io. now apply F.
Qed.
Lemma removeall_step : forall d st i st', inv (streams st) -> step d st (Remove_all i) = Some st' -> types st' = types st /\
  only (streams st) (streams st') i (flg (get (streams st) i)) (plain (get (streams st) i)) [].
Proof.
  intros d st i st' I H. pose proof (there_some st i d (Remove_all i) st' eq_refl H) as T. cbn [step] in H. rewrite (proj2 (there_iff _ _) T) in H. unfold removeall in H.
  destruct (outs (get (streams st) i)) as [|x os] eqn:Eo.
  - cbn [bind] in H. injection H as <-. cbn [streams types]. split; [reflexivity|]. repeat split; auto.
  - destruct (rematerialize _ _) as [s1|] eqn:E; [|discriminate H]. cbn [bind] in H. injection H as <-. cbn [streams types]. split; [reflexivity|].
    apply remat_inv in E; [|apply inv_upd; auto; apply ok_outs_nil]. destruct E as (A & _). now apply (alike_only (streams st) s1 i _ T A).
Qed.
Lemma set_flags_step : forall d st i f st', inv (streams st) -> step d st (Set_flags i f) = Some st' -> types st' = types st /\
  only (streams st) (streams st') i f (plain (get (streams st) i)) (outs (get (streams st) i)).
Proof.
  intros d st i f st' I H. pose proof (there_some st i d (Set_flags i f) st' eq_refl H) as T. cbn [step] in H. rewrite (proj2 (there_iff _ _) T) in H.
  destruct (set_flags d (streams st) i f) as [s1|] eqn:E; [|discriminate H]. cbn [bind] in H. injection H as <-. cbn [streams types]. split; [reflexivity|].
  destruct (set_flags_ok _ _ _ _ _ I T E) as (_ & _ & X). now apply (alike_only (streams st) s1 i _ T X).
Qed.
Lemma set_plain_step : forall d st i b st', step d st (Set_plain i b) = Some st' -> types st' = types st /\
  (writer (get (streams st) i) = true -> only (streams st) (streams st') i (flg (get (streams st) i)) b (outs (get (streams st) i))) /\
  (writer (get (streams st) i) = false -> nothing (streams st) (streams st')).
Proof.
  intros d st i b st' H. pose proof (there_some st i d (Set_plain i b) st' eq_refl H) as T. cbn [step] in H. rewrite (proj2 (there_iff _ _) T) in H. cbn [bind] in H. injection H as <-.
  cbn [streams types]. split; [reflexivity|]. split; intros ->; [|apply nothing_refl]. apply (alike_only (streams st) _ i (with_plain b (get (streams st) i)) T (alike_refl _)); reflexivity.
Qed.
Lemma resolve_len : forall ts ss, length (final_resolve ts ss) = length ss. Proof. intros. apply resolve_alike. Qed.
Lemma resolve_all : forall ts ss, (forall i t, i < length ss -> type (get ss i) = Some t -> In t ts) -> forall i,
  name (get (final_resolve ts ss) i) = name (get ss i) /\ flg (get (final_resolve ts ss) i) = flg (get ss i) /\ type (get (final_resolve ts ss) i) = type (get ss i) /\
  plain (get (final_resolve ts ss) i) = plain (get ss i) /\ outs (get (final_resolve ts ss) i) = outs (get ss i) /\
  writer (get (final_resolve ts ss) i) = (writer (get ss i) || match type (get ss i) with Some _ => true | None => false end).
Proof.
  intros ts. induction ss as [|s ss IH]; intros K i.
  - cbn [final_resolve]. destruct i; repeat split; reflexivity.
  - assert (K' : forall i t, i < length ss -> type (get ss i) = Some t -> In t ts) by (intros k t L E; apply (K (S k) t); [cbn; lia|exact E]).
    specialize (IH K'). cbn [final_resolve]. pose proof (K 0) as K0. unfold get in K0 at 1. cbn [nth] in K0. destruct (type s) as [t|] eqn:Et.
    + destruct (writer s) eqn:Ew.
      * destruct i as [|i]; [|exact (IH i)]. unfold get. cbn [nth]. rewrite Ew. repeat split; reflexivity.
      * assert (Kn : known ts t = true) by (apply existsb_exists; exists t; split; [apply K0; [cbn; lia|reflexivity]|now apply eqb_bytes_iff]).
        rewrite Kn. destruct i as [|i]; [|exact (IH i)]. unfold get. cbn [nth with_writer name flg type plain outs writer]. rewrite Et, Ew. repeat split; reflexivity.
    + destruct i as [|i]; [|exact (IH i)]. unfold get. cbn [nth]. rewrite Et, orb_false_r. repeat split; reflexivity.
Qed.
(** a stream that could not be opened, and the stream stderr *)
Lemma new_fails : forall d st n ty opens, n = n_stderr \/ (opens = false /\ exists t, ty = Some t /\ In t (types st)) ->
  new_stream d st n ty opens = bind (find_stream d (streams st) n) (fun r => Some (fst r)).
Proof.
  intros d st n ty opens H. unfold new_stream. destruct (find_stream d (streams st) n) as [r|]; [cbn [bind]|reflexivity]. destruct (eqb_bytes n n_stderr) eqn:E; [reflexivity|].
  destruct H as [->|(-> & t & -> & I)]; [pose proof (proj2 (eqb_bytes_iff n_stderr n_stderr) eq_refl); congruence|].
  assert (Kn : known (types st) t = true) by (apply existsb_exists; exists t; split; [exact I|now apply eqb_bytes_iff]). rewrite Kn. reflexivity.
Qed.
