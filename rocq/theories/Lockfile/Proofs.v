From Coq Require Import List Arith Bool Lia.
From Verif.Lockfile Require Import Model Spec.
Import ListNotations.

Definition keeps_quiet (e : ev) (p f : nat) : Prop := e <> Ended p /\ e <> Gave_up p f /\ forall fd, e <> Released p f fd.
Lemma owns_last : forall h e p f, owns (h ++ [e]) p f <-> (exists fd, e = Got p f fd) \/ owns h p f /\ keeps_quiet e p f.
Proof.
  intros h e p f. split.
  - intros (h1 & h2 & fd & E & A & B & C). destruct (exists_last (l := Got p f fd :: h2)) as (l & x & X); [discriminate|].
    rewrite X, app_assoc in E. apply app_inj_tail in E. destruct E as [E <-].
    destruct l as [|y l]; cbn in X; injection X as X1 X2; subst; [left; now exists fd|right].
    split.
    + exists h1, l, fd. split; [reflexivity|]. split; [intros I; apply A, in_or_app; now left|]. split; [intros I; apply B, in_or_app; now left|].
      intros k I. apply (C k), in_or_app. now left.
    + split; [intros ->; apply A, in_or_app; right; now left|]. split; [intros ->; apply B, in_or_app; right; now left|].
      intros k ->. apply (C k), in_or_app. right. now left.
  - intros [[fd ->]|[(h1 & h2 & fd & E & A & B & C) (Q1 & Q2 & Q3)]].
    + exists h, [], fd. split; [reflexivity|]. repeat split; intros; intros [].
    + exists h1, (h2 ++ [e]), fd. rewrite E, <- app_assoc. split; [reflexivity|].
      split; [intros I; apply in_app_or in I; destruct I as [I|[I|[]]]; [now apply A|now apply Q1]|].
      split; [intros I; apply in_app_or in I; destruct I as [I|[I|[]]]; [now apply B|now apply Q2]|].
      intros k I. apply in_app_or in I. destruct I as [I|[I|[]]]; [now apply (C k)|now apply (Q3 k)].
Qed.

(** The kernel's locks are those the history tells of *)
Definition inv (s : st) (h : list ev) : Prop := forall p f, lock s f = Some p <-> owns h p f.
Lemma inv_ext : forall s s' h, (forall f, lock s' f = lock s f) -> inv s h -> inv s' h.
Proof. intros s s' h E I p f. now rewrite E. Qed.
Lemma inv_got : forall s h p f fd n l, inv s h -> other s p f = None -> inv (mk (set (lock s) f (Some p)) l n) (h ++ [Got p f fd]).
Proof.
  intros s h p f fd n l I O q g. rewrite owns_last. cbn [lock]. unfold set. unfold other in O.
  destruct (Nat.eqb_spec g f) as [->|N].
  - split.
    + intros E. injection E as <-. left. now exists fd.
    + intros [[k E]|[W _]]; [congruence|]. apply I in W. rewrite W in O. destruct (Nat.eqb_spec q p) as [Q|Q]; [now rewrite Q|discriminate O].
  - rewrite (I q g). split.
    + intros W. right. split; [exact W|]. repeat split; discriminate.
    + intros [[k E]|[W _]]; [congruence|exact W].
Qed.
Lemma drop_spec : forall s p f g, drop s p f g = if (g =? f) then match lock s f with Some q => if q =? p then None else Some q | None => None end else lock s g.
Proof.
  intros s p f g. unfold drop. destruct (Nat.eqb_spec g f) as [->|N].
  - destruct (lock s f) as [q|] eqn:E; [|exact E]. destruct (q =? p) eqn:Q; [|exact E]. unfold set. now rewrite Nat.eqb_refl.
  - destruct (lock s f) as [q|]; [|reflexivity]. destruct (q =? p); [|reflexivity]. unfold set. apply Nat.eqb_neq in N. now rewrite N.
Qed.
Lemma inv_drop : forall s h p f e n l, inv s h -> e = Gave_up p f \/ (exists fd, e = Released p f fd) -> inv (mk (drop s p f) l n) (h ++ [e]).
Proof.
  intros s h p f e n l I He q g. rewrite owns_last. cbn [lock]. rewrite drop_spec.
  assert (NG : forall fd, e <> Got q g fd) by (intros fd; destruct He as [->|[k ->]]; discriminate).
  destruct (Nat.eqb_spec g f) as [->|N].
  - split.
    + intros E. destruct (lock s f) as [r|] eqn:L; [|discriminate E]. destruct (Nat.eqb_spec r p) as [->|Nr]; [discriminate E|]. injection E as ->.
      right. split; [now apply I|]. destruct He as [->|[k ->]]; repeat split; try discriminate; [congruence|intros fd E; congruence].
    + intros [[k E]|[W (_ & Q2 & Q3)]]; [now apply NG in E|]. apply I in W. rewrite W. destruct (Nat.eqb_spec q p) as [->|]; [|reflexivity].
      destruct He as [->|[k ->]]; [now destruct Q2|now destruct (Q3 k)].
  - rewrite (I q g). split.
    + intros W. right. split; [exact W|]. destruct He as [->|[k ->]]; repeat split; try discriminate; [congruence|intros fd E; congruence].
    + intros [[k E]|[W _]]; [now apply NG in E|exact W].
Qed.
Lemma drop_twice : forall s p f g l n, drop (mk (drop s p f) l n) p f g = drop s p f g.
Proof.
  intros s p f g l n. rewrite !drop_spec. cbn [lock]. rewrite !drop_spec, Nat.eqb_refl. destruct (g =? f); [|reflexivity].
  destruct (lock s f) as [q|]; [|reflexivity]. destruct (q =? p) eqn:Q; [reflexivity|]. now rewrite Q.
Qed.
Lemma acquire_inv : forall p f o l s h, inv s h -> inv (fst (fst (acquire p f o l s))) (h ++ snd (fst (acquire p f o l s))).
Proof.
  intros p f o l s h I. unfold acquire. destruct o; cbn [negb]; [|cbn [fst snd]; now rewrite app_nil_r].
  assert (I1 : inv (opened s p f) h) by (eapply inv_ext; [|exact I]; reflexivity).
  unfold setlk. destruct (call l); [destruct (other (opened s p f) p f) as [r|] eqn:O|]; cbn [fst snd]; unfold close.
  - apply inv_drop; [exact I1|now left].
  - now apply inv_got.
  - apply inv_drop; [exact I1|now left].
Qed.
Lemma release_inv : forall fd l s h, inv s h -> inv (fst (fst (release fd l s))) (h ++ snd (fst (release fd l s))).
Proof.
  intros fd l s h I. unfold release. destruct (find _ (fds s)) as [[[k p] f]|]; cbn [fst snd]; [|now rewrite app_nil_r].
  unfold close. eapply inv_ext; [|apply (inv_drop s h p f (Released p f fd) 0 [] I); right; now exists fd]. intros g. cbn [lock].
  destruct (call l); [apply drop_twice|reflexivity].
Qed.
Lemma end_inv : forall p s h, inv s h -> inv (end_process p s) (h ++ [Ended p]).
Proof.
  intros p s h I q f. rewrite owns_last. cbn [lock end_process]. split.
  - intros E. destruct (lock s f) as [r|] eqn:L; [|discriminate E]. destruct (Nat.eqb_spec r p) as [->|N]; [discriminate E|]. injection E as ->.
    right. split; [now apply I|]. repeat split; try discriminate. congruence.
  - intros [[k E]|[W (Q & _)]]; [discriminate E|]. apply I in W. rewrite W. destruct (Nat.eqb_spec q p) as [->|]; [now destruct Q|reflexivity].
Qed.
Lemma step_inv : forall x s h, inv s h -> inv (fst (step s x)) (h ++ snd (step s x)).
Proof. intros [p f o l|fd l|p] s h I; cbn [step]; [now apply acquire_inv|now apply release_inv|now apply end_inv]. Qed.
Lemma steps_inv : forall l s h, inv s h -> inv (fst (steps s l)) (h ++ snd (steps s l)).
Proof. induction l as [|x l IH]; intros s h I; cbn [steps fst snd]; [now rewrite app_nil_r|]. rewrite app_assoc. now apply IH, step_inv. Qed.
Lemma owner_inv : forall p f o l1 mid l2 s h, inv s h -> inv (fst (do_act s (Owner p f o l1 mid l2))) (h ++ snd (do_act s (Owner p f o l1 mid l2))).
Proof.
  intros p f o l1 mid l2 s h I. cbn [do_act]. unfold acquire_owner. destruct o; cbn [negb]; [|cbn [fst snd]; now rewrite app_nil_r].
  assert (I1 : inv (opened s p f) h) by (eapply inv_ext; [|exact I]; reflexivity).
  destruct (call l1); cbn [negb]; [|cbn [fst snd]; unfold close; apply inv_drop; [exact I1|now left]].
  pose proof (steps_inv mid _ _ I1) as I2. set (r := steps (opened s p f) mid) in *. clearbody r.
  unfold setlk. destruct (call l2); [destruct (other (fst r) p f) as [q|] eqn:O|]; cbn [fst snd]; unfold close; rewrite app_assoc.
  - apply inv_drop; [exact I2|now left].
  - now apply inv_got.
  - apply inv_drop; [exact I2|now left].
Qed.
Lemma run_inv_from : forall l s h, inv s h -> inv (fst (run s l)) (h ++ snd (run s l)).
Proof.
  induction l as [|a l IH]; intros s h I; cbn [run fst snd]; [now rewrite app_nil_r|]. rewrite app_assoc. apply IH.
  destruct a; [now apply step_inv|now apply owner_inv].
Qed.
Lemma run_inv : forall l, inv (fst (run start l)) (snd (run start l)).
Proof.
  intros l. apply (run_inv_from l start []). intros p f. split; [discriminate|]. intros (h1 & h2 & fd & E & _). now destruct h1.
Qed.
Lemma exclusive : forall l p q f, owns (snd (run start l)) p f -> owns (snd (run start l)) q f -> p = q.
Proof. intros l p q f A B. apply run_inv in A, B. congruence. Qed.
Lemma keeps_owns : forall h p f fd, keeps h p f fd -> (forall k, In (Released p f k) h -> k = fd) -> ~ In (Gave_up p f) h -> owns h p f.
Proof.
  intros h p f fd (h1 & h2 & -> & A & B) C D. exists h1, h2, fd. split; [reflexivity|]. split; [exact A|].
  split; [intros I; apply D, in_or_app; right; now right|]. intros k I. assert (E : k = fd) by (apply C, in_or_app; right; now right). now subst k.
Qed.

(** Numbers of descriptors are new *)
Definition fresh (s : st) : Prop := forall x, In x (fds s) -> fst (fst x) < next s.
Lemma fresh_le : forall s n l, fresh s -> next s <= n -> (forall x, In x l -> In x (fds s)) -> forall g, fresh (mk g l n).
Proof. intros s n l F N I g x X. cbn [fds next] in *. apply I, F in X. lia. Qed.
Lemma fresh_open : forall s p f, fresh s -> fresh (opened s p f).
Proof. intros s p f F x [<-|X]; cbn; [lia|]. apply F in X. lia. Qed.
Lemma fresh_close : forall s p f fd, fresh s -> fresh (close s p f fd).
Proof. intros s p f fd F. eapply fresh_le; [exact F|lia|]. intros x X. now apply filter_In in X. Qed.
Lemma fresh_setlk : forall l s p f s', fresh s -> setlk l s p f = Some s' -> fresh s'.
Proof. intros l s p f s' F E. unfold setlk in E. destruct (call l); [|discriminate E]. destruct (other s p f); [discriminate E|]. injection E as <-. exact F. Qed.
Lemma fresh_step : forall x s, fresh s -> fresh (fst (step s x)).
Proof.
  intros [p f o l|fd l|p] s F; cbn [step].
  - unfold acquire. destruct o; cbn [negb]; [|exact F]. destruct (setlk l (opened s p f) p f) as [s'|] eqn:E; cbn [fst].
    + eapply fresh_setlk; [|exact E]. now apply fresh_open.
    + now apply fresh_close, fresh_open.
  - unfold release. destruct (find _ (fds s)) as [[[k p] f]|]; cbn [fst]; [|exact F]. apply fresh_close. destruct (call l); exact F.
  - cbn [fst]. unfold end_process. eapply fresh_le; [exact F|lia|]. intros x X. now apply filter_In in X.
Qed.
Lemma fresh_steps : forall l s, fresh s -> fresh (fst (steps s l)).
Proof. induction l as [|x l IH]; intros s F; cbn [steps fst]; [exact F|]. now apply IH, fresh_step. Qed.
Lemma fresh_run : forall l s, fresh s -> fresh (fst (run s l)).
Proof.
  induction l as [|a l IH]; intros s F; cbn [run fst]; [exact F|]. apply IH. destruct a as [x|p f o l1 mid l2]; [now apply fresh_step|].
  cbn [do_act]. unfold acquire_owner. destruct o; cbn [negb]; [|exact F]. destruct (call l1); cbn [negb]; [|cbn [fst]; now apply fresh_close, fresh_open].
  destruct (setlk l2 _ p f) as [s'|] eqn:E; cbn [fst].
  - eapply fresh_setlk; [|exact E]. now apply fresh_steps, fresh_open.
  - now apply fresh_close, fresh_steps, fresh_open.
Qed.
Lemma no_leak : forall s p f, fresh s -> fds (close (opened s p f) p f (next s)) = fds s.
Proof.
  intros s p f F. cbn [close opened fds]. cbn [filter fst]. rewrite Nat.eqb_refl. cbn [negb].
  assert (G : forall l, (forall x, In x l -> fst (fst x) < next s) -> filter (fun x : nat * nat * nat => negb (fst (fst x) =? next s)) l = l).
  { induction l as [|x l IH]; intros H; cbn [filter]; [reflexivity|]. replace (fst (fst x) =? next s) with false.
    - cbn [negb]. f_equal. apply IH. intros y Y. apply H. now right.
    - symmetry. apply Nat.eqb_neq. specialize (H x (or_introl eq_refl)). lia. }
  now apply G.
Qed.
Lemma fresh_start : fresh start.
Proof. intros x []. Qed.
(** The answers *)
Lemma acquire_free : forall l p f r, (forall q, q <> p -> ~ owns (snd (run start l)) q f) -> call r = true ->
  exists fd, snd (acquire p f true r (fst (run start l))) = Some fd /\ snd (fst (acquire p f true r (fst (run start l)))) = [Got p f fd] /\
    owns (snd (run start l) ++ [Got p f fd]) p f.
Proof.
  intros l p f r H R. pose proof (run_inv l) as I. set (s := fst (run start l)) in *. set (h := snd (run start l)) in *. clearbody s h.
  unfold acquire. cbn [negb]. unfold setlk. rewrite R. replace (other (opened s p f) p f) with (@None nat).
  - exists (next s). cbn [fst snd]. split; [reflexivity|]. split; [reflexivity|]. rewrite owns_last. left. now exists (next s).
  - unfold other. cbn [opened lock]. destruct (lock s f) as [q|] eqn:E; [|reflexivity]. destruct (Nat.eqb_spec q p) as [_|N]; [reflexivity|]. apply I in E. now apply H in E.
Qed.
Lemma acquire_held : forall l p q f o r, q <> p -> owns (snd (run start l)) q f ->
  let a := acquire p f o r (fst (run start l)) in
  snd a = None /\ fds (fst (fst a)) = fds (fst (run start l)) /\ (forall g, lock (fst (fst a)) g = lock (fst (run start l)) g) /\ owns (snd (run start l) ++ snd (fst a)) q f.
Proof.
  intros l p q f o r N W. pose proof (run_inv l) as I. pose proof (fresh_run l start fresh_start) as F. pose proof (proj2 (I q f) W) as L. set (s := fst (run start l)) in *. set (h := snd (run start l)) in *. clearbody s h.
  assert (O : other (opened s p f) p f = Some q) by (unfold other; cbn [opened lock]; rewrite L; apply Nat.eqb_neq in N; now rewrite N).
  unfold acquire. destruct o; cbn [negb]; [|cbn [fst snd]; rewrite app_nil_r; now repeat split].
  assert (E : setlk r (opened s p f) p f = None) by (unfold setlk; rewrite O; now destruct (call r)). rewrite E. cbn [fst snd].
  split; [reflexivity|]. split; [now apply no_leak|]. split.
  - intros g. cbn [close lock]. rewrite drop_spec. cbn [opened lock]. rewrite L. destruct (Nat.eqb_spec g f) as [->|]; [|reflexivity]. apply Nat.eqb_neq in N. now rewrite N, L.
  - rewrite owns_last. right. split; [exact W|]. repeat split; try discriminate. congruence.
Qed.
Lemma acquire_owner_quiet : forall l p f l1 l2, call l1 = true -> call l2 = true ->
  let a := acquire_owner p f true l1 [] l2 (fst (run start l)) in
  match snd a with
  | Some q => q <> p /\ owns (snd (run start l)) q f /\ snd (fst a) = None
  | None => (forall q, q <> p -> ~ owns (snd (run start l)) q f) /\ snd (fst a) <> None
  end.
Proof.
  intros l p f l1 l2 A B. pose proof (run_inv l) as I. set (s := fst (run start l)) in *. set (h := snd (run start l)) in *. clearbody s h.
  unfold acquire_owner. cbn [negb]. rewrite A. cbn [negb steps fst]. unfold setlk. rewrite B.
  destruct (other (opened s p f) p f) as [q|] eqn:O; cbn [fst snd]; unfold other in O; cbn [opened lock] in O; destruct (lock s f) as [r|] eqn:L; try discriminate O.
  - destruct (Nat.eqb_spec r p) as [|N]; [discriminate O|]. injection O as ->. split; [exact N|]. split; [now apply I|reflexivity].
  - destruct (Nat.eqb_spec r p) as [->|]; [|discriminate O]. split; [|discriminate]. intros q N W. apply I in W. congruence.
  - split; [|discriminate]. intros q N W. apply I in W. congruence.
Qed.
