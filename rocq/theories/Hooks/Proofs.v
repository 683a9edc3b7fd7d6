From Coq Require Import Arith List Bool Lia.
From Verif.Hooks Require Import Model Spec.
Import ListNotations.

Definition nx (ns : list node) x := match nth_error ns x with Some nd => nxt nd | None => None end.
Definition fn (ns : list node) x := match nth_error ns x with Some nd => func nd | None => None end.
Fixpoint path (ns : list node) (h : option nat) (l : list nat) : Prop :=
  match l with [] => h = None | x :: r => h = Some x /\ x < length ns /\ path ns (nx ns x) r end.

Lemma callbacks_cons f l : callbacks (f :: l) = match f with Some c => c :: callbacks l | None => callbacks l end.
Proof. destruct f; reflexivity. Qed.

Lemma invoke_path ns res l : forall fuel h rv, path ns h l -> length l < fuel ->
  let cb := callbacks (map (fn ns) l) in
  invoke_loop fuel ns res h rv =
  Some (ran res cb, if existsb (fun c => is_abort (res c)) (ran res cb) then ABORT
                    else if existsb (fun c => is_done (res c)) (ran res cb) then DONE else rv).
Proof.
  induction l as [|x l IH]; intros [|fuel] h rv P L; cbn in L; try lia; cbn [path] in P.
  - subst h. reflexivity.
  - destruct P as (-> & B & P). cbn [invoke_loop map]. unfold nx in P.
    destruct (nth_error ns x) as [nd|] eqn:E; [|apply nth_error_None in E; lia].
    assert (fn ns x = func nd) as FE by (unfold fn; rewrite E; reflexivity). rewrite FE, callbacks_cons.
    destruct (func nd) as [c|] eqn:F.
    + cbn [ran]. destruct (res c) eqn:R; cbn [is_abort existsb]; rewrite ?R; cbn [is_abort is_done orb].
      * rewrite (IH fuel _ rv P) by lia. reflexivity.
      * rewrite (IH fuel _ DONE P) by lia. cbv zeta. destruct (existsb _ _); [reflexivity|]. destruct (existsb _ _); reflexivity.
      * reflexivity.
    + rewrite (IH fuel _ rv P) by lia. reflexivity.
Qed.

Lemma invoke_of_path s res l : path (nodes s) (head s) l -> length l <= length (nodes s) ->
  invoke s res = Some (ran res (callbacks (funcs s l)), result res (callbacks (funcs s l))).
Proof.
  intros P L. unfold invoke. rewrite (invoke_path (nodes s) res l) by (auto; lia). reflexivity.
Qed.

(** ** every schedule *)
Lemma nth_split {A} i : forall (l : list A) c, nth_error l i = Some c ->
  exists a b, l = a ++ c :: b /\ (forall y, set_nth i y l = a ++ y :: b) /\ remove_nth i l = a ++ b.
Proof.
  induction i as [|i IH]; intros [|x l] c; cbn; try discriminate.
  - intros [= ->]. exists [], l. auto.
  - intros H. destruct (IH l c H) as (a & b & -> & E1 & E2). exists (x :: a), b. cbn. rewrite E2. repeat split. intros. rewrite E1. reflexivity.
Qed.
Lemma nth_set {A} i : forall j (l : list A) y, nth_error (set_nth i y l) j = if (i =? j) && (i <? length l) then Some y else nth_error l j.
Proof.
  induction i as [|i IH]; intros [|j] [|x l] y; cbn [set_nth nth_error Nat.eqb andb length]; auto.
  - rewrite andb_false_r. reflexivity.
  - apply IH.
Qed.
Lemma length_set {A} i : forall (l : list A) y, length (set_nth i y l) = length l.
Proof. induction i as [|i IH]; intros [|x l] y; cbn; auto. Qed.
Lemma nx_set ns x f h y : x < length ns -> nx (set_nth x {| func := f; nxt := h |} ns) y = if x =? y then h else nx ns y.
Proof. intros B. unfold nx. rewrite nth_set. rewrite (proj2 (Nat.ltb_lt _ _) B), andb_true_r. destruct (x =? y); reflexivity. Qed.
Lemma nx_app ns nd y : y < length ns -> nx (ns ++ [nd]) y = nx ns y.
Proof. intros B. unfold nx. rewrite nth_error_app1 by assumption. reflexivity. Qed.

Definition inpub (pub : list nat) (h : option nat) : Prop := match h with None => True | Some x => In x pub end.
Fixpoint older (ns : list node) (pub : list nat) : Prop :=
  match pub with [] => True | x :: r => inpub r (nx ns x) /\ older ns r end.
Record G (s : sys) (pub : list nat) : Prop := {
  g_nd : NoDup (map fst (calls s) ++ pub);
  g_all : forall x, In x (map fst (calls s) ++ pub) <-> x < length (nodes s);
  g_head : head s = hd_error pub;
  g_old : older (nodes s) pub;
  g_call : forall x p, In (x, p) (calls s) -> p <> ReadNext -> inpub pub (nx (nodes s) x) }.

Lemma older_ext ns ns' pub : (forall x, In x pub -> nx ns' x = nx ns x) -> older ns pub -> older ns' pub.
Proof.
  induction pub as [|x r IH]; cbn; auto. intros E [A B]. rewrite E by auto. split; [exact A|]. apply IH; auto.
Qed.
Lemma hd_in pub : inpub pub (hd_error pub).
Proof. destruct pub; cbn; auto. Qed.

Lemma NoDup_mid {A} (a : list A) x b : NoDup (a ++ x :: b) -> NoDup (a ++ b) /\ ~ In x (a ++ b).
Proof. intros H. split; [eapply NoDup_remove_1; eauto|eapply NoDup_remove_2; eauto]. Qed.

Lemma step_G s c pub : G s pub -> G (step s c) (returned_by s c ++ pub).
Proof.
  intros [N A H O C]. destruct c as [f|i]; cbn [step returned_by].
  - split; cbn [nodes head calls map fst app]; auto.
    + constructor; [|exact N]. rewrite A. lia.
    + intros x. cbn [In]. rewrite A, app_length. cbn. lia.
    + eapply older_ext; [|exact O]. intros x Hx. apply nx_app. apply A. apply in_or_app. auto.
    + intros x p [E|I] NR; [injection E as <- <-; contradiction|]. rewrite nx_app; [eauto|].
      apply A. apply in_or_app. left. apply in_map_iff. exists (x, p). auto.
  - destruct (nth_error (calls s) i) as [[x p]|] eqn:E; [|split; auto].
    destruct (nth_split _ _ _ E) as (ca & cb & EC & ES & ER).
    assert (x < length (nodes s)) as BX. { apply A. apply in_or_app. left. rewrite EC, map_app. apply in_or_app. right. left. reflexivity. }
    assert (forall q, map fst (ca ++ (x, q) :: cb) = map fst (calls s)) as EM. { intros q. rewrite EC, !map_app. reflexivity. }
    assert (~ In x pub) as NX. { rewrite EC, map_app, <- app_assoc in N. cbn in N. apply NoDup_remove_2 in N. rewrite !in_app_iff in N. tauto. }
    assert (forall y q, In (y, q) (ca ++ cb) -> In (y, q) (calls s)) as IN. { intros y q. rewrite EC, !in_app_iff. cbn. tauto. }
    assert (forall y q, In (y, q) (ca ++ cb) -> y <> x) as NE.
    { intros y q Hy ->. rewrite EC, map_app, <- app_assoc in N. cbn in N. apply NoDup_remove_2 in N. apply N. rewrite app_assoc, <- map_app. apply in_or_app. left. apply in_map_iff. exists (x, q). auto. }
    destruct p as [| |e]; cbn [app].
    + rewrite ES. split; cbn [nodes head calls]; rewrite ?EM, ?length_set; auto.
      * eapply older_ext; [|exact O]. intros y Hy. rewrite nx_set by assumption. destruct (Nat.eqb_spec x y); [subst; contradiction|reflexivity].
      * intros y q Hy NR. rewrite nx_set by assumption. rewrite in_app_iff in Hy. cbn in Hy.
        destruct (Nat.eqb_spec x y); [rewrite H; apply hd_in|]. apply (C y q); [|assumption]. apply IN. apply in_or_app. destruct Hy as [|[Hy|]]; auto. congruence.
    + rewrite ES. split; cbn [nodes head calls]; rewrite ?EM; auto.
      intros y q Hy NR. rewrite in_app_iff in Hy. cbn in Hy. destruct Hy as [Hy|[Hy|Hy]].
      * apply (C y q); auto. apply IN. apply in_or_app; auto.
      * injection Hy as <- <-. apply (C x ReadExpected); [|discriminate]. rewrite EC. apply in_or_app. right. left. reflexivity.
      * apply (C y q); auto. apply IN. apply in_or_app; auto.
    + destruct (same (head s) e).
      * rewrite ER. cbn [app].
        assert (map fst (ca ++ (x, Cas e) :: cb) ++ pub = map fst ca ++ x :: (map fst cb ++ pub)) as E1. { rewrite map_app, <- app_assoc. reflexivity. }
        assert (map fst (ca ++ cb) ++ x :: pub = (map fst ca ++ map fst cb) ++ x :: pub) as E2. { rewrite map_app. reflexivity. }
        rewrite EC, E1 in N, A.
        split; cbn [nodes head calls hd_error older]; auto.
        -- rewrite E2. apply NoDup_mid in N. destruct N as [N1 N2]. rewrite app_assoc in N1, N2. apply NoDup_Add with (a := x) (l := (map fst ca ++ map fst cb) ++ pub); [apply Add_app|]. auto.
        -- intros y. rewrite E2, <- A. rewrite !in_app_iff. cbn. rewrite !in_app_iff. tauto.
        -- split; [|exact O]. apply (C x (Cas e)); [|discriminate]. rewrite EC. apply in_or_app. right. left. reflexivity.
        -- intros y q Hy NR. specialize (C y q (IN y q Hy) NR). destruct (nx (nodes s) y); cbn in *; auto.
      * rewrite ES. split; cbn [nodes head calls app]; rewrite ?EM; auto.
        intros y q Hy NR. rewrite in_app_iff in Hy. cbn in Hy. destruct Hy as [Hy|[Hy|Hy]].
        -- apply (C y q); auto. apply IN. apply in_or_app; auto.
        -- injection Hy as <- <-. contradiction.
        -- apply (C y q); auto. apply IN. apply in_or_app; auto.
Qed.

Lemma run_G cs : forall s pub, G s pub -> G (run s cs) (returned s pub cs).
Proof. induction cs as [|c cs IH]; intros s pub g; cbn; [exact g|]. apply IH. apply step_G. exact g. Qed.
Lemma G_init : G init [].
Proof. split; cbn; auto; [constructor|intros x; split; [contradiction|lia]|intros; contradiction]. Qed.

Lemma older_path ns pub : forall h, NoDup pub -> (forall x, In x pub -> x < length ns) -> older ns pub -> inpub pub h ->
  exists l, path ns h l /\ incl l pub /\ NoDup l.
Proof.
  induction pub as [|y r IH]; intros h N B O I; cbn in *.
  - destruct h; [contradiction|]. exists []. split; [reflexivity|]. split; [intros ? []|constructor].
  - inversion N; subst. destruct O as [O1 O2]. destruct h as [x|].
    + destruct I as [->|I].
      * destruct (IH (nx ns x)) as (l & P & IL & NL); auto. exists (x :: l). repeat split; auto.
        -- intros z [->|Hz]; [left; reflexivity|right; auto].
        -- constructor; auto.
      * destruct (IH (Some x)) as (l & P & IL & NL); auto. exists l. repeat split; auto. intros z Hz. right. auto.
    + exists []. split; [reflexivity|]. split; [intros ? []|constructor].
Qed.

Lemma path_head ns h l : path ns h l -> hd_error l = h.
Proof. destruct l; cbn; [congruence|]. intros (-> & _); reflexivity. Qed.

Lemma any_schedule cs : let s := run init cs in let pub := returned init [] cs in
  NoDup pub /\ (forall x, x < length (nodes s) -> ~ In x (map fst (calls s)) -> In x pub) /\
  exists l, incl l pub /\ NoDup l /\ hd_error l = hd_error pub /\
    forall res, invoke s res = Some (ran res (callbacks (funcs s l)), result res (callbacks (funcs s l))).
Proof.
  intros s pub. destruct (run_G cs init [] G_init) as [N A H O C]. fold s pub in N, A, H, O, C.
  assert (NoDup pub) as NP. { clear -N. induction (map fst (calls s)); cbn in N; auto. inversion N; auto. }
  split; [exact NP|]. split.
  - intros x B NI. apply A in B. apply in_app_or in B. tauto.
  - assert (forall x, In x pub -> x < length (nodes s)) as B by (intros x Hx; apply A; apply in_or_app; auto).
    destruct (older_path (nodes s) pub (head s) NP B O) as (l & P & IL & NL); [rewrite H; apply hd_in|].
    exists l. repeat split; auto.
    + rewrite (path_head _ _ _ P). exact H.
    + intros res. apply invoke_of_path; [exact P|]. rewrite <- (seq_length (length (nodes s)) 0). apply NoDup_incl_length; [exact NL|].
      intros x Hx. apply in_seq. cbn. split; [lia|]. apply B. auto.
Qed.

(** ** undisturbed schedules *)
Record U (s : sys) (pub : list nat) : Prop := {
  u_path : path (nodes s) (head s) pub;
  u_exp : forall x, In (x, ReadExpected) (calls s) -> nx (nodes s) x = head s;
  u_cas : forall x e, In (x, Cas e) (calls s) -> nx (nodes s) x = e }.

Lemma path_ext ns ns' l : forall h, length ns <= length ns' -> (forall x, In x l -> nx ns' x = nx ns x) -> path ns h l -> path ns' h l.
Proof.
  induction l as [|x r IH]; cbn; auto. intros h L E (-> & B & P). split; [reflexivity|]. split; [lia|]. rewrite E by auto. apply IH; auto.
Qed.
Lemma same_eq a b : same a b = true -> a = b.
Proof. destruct a, b; cbn; try discriminate; auto. intros H. apply Nat.eqb_eq in H. congruence. Qed.
Lemma between_false s x : between s = false -> ~ In (x, ReadExpected) (calls s).
Proof.
  unfold between. intros H I. assert (existsb (fun c : nat * pc => match snd c with ReadExpected => true | _ => false end) (calls s) = true); [|congruence].
  apply existsb_exists. exists (x, ReadExpected). auto.
Qed.

Lemma step_U s c pub : G s pub -> U s pub -> (match returned_by s c with [] => true | _ => negb (between s) end) = true ->
  U (step s c) (returned_by s c ++ pub).
Proof.
  intros [N A H O C] [P E K]. destruct c as [f|i]; cbn [step returned_by].
  - intros _. assert (forall x p, In (x, p) (calls s) -> x < length (nodes s)) as B.
    { intros x p I. apply A. apply in_or_app. left. apply in_map_iff. exists (x, p). auto. }
    split; cbn [nodes head calls app].
    + eapply path_ext with (ns := nodes s); [rewrite app_length; lia|intros x Hx|exact P]. apply nx_app. apply A. apply in_or_app; auto.
    + intros x [I|I]; [discriminate|]. rewrite nx_app by eauto. auto.
    + intros x e [I|I]; [discriminate|]. rewrite nx_app by eauto. auto.
  - destruct (nth_error (calls s) i) as [[x p]|] eqn:EI; [|intros _; split; auto].
    destruct (nth_split _ _ _ EI) as (ca & cb & EC & ES & ER).
    assert (x < length (nodes s)) as BX. { apply A. apply in_or_app. left. rewrite EC, map_app. apply in_or_app. right. left. reflexivity. }
    assert (~ In x pub) as NX. { rewrite EC, map_app, <- app_assoc in N. cbn in N. apply NoDup_remove_2 in N. rewrite !in_app_iff in N. tauto. }
    assert (forall y q, In (y, q) (ca ++ cb) -> In (y, q) (calls s)) as IN. { intros y q. rewrite EC, !in_app_iff. cbn. tauto. }
    assert (forall y q, In (y, q) (ca ++ cb) -> y <> x) as NE.
    { intros y q Hy ->. rewrite EC, map_app, <- app_assoc in N. cbn in N. apply NoDup_remove_2 in N. apply N. rewrite app_assoc, <- map_app. apply in_or_app. left. apply in_map_iff. exists (x, q). auto. }
    assert (forall y q q', In (y, q) (ca ++ (x, q') :: cb) -> (y, q) = (x, q') \/ In (y, q) (ca ++ cb)) as MID.
    { intros y q q'. rewrite !in_app_iff. cbn. intuition congruence. }
    destruct p as [| |e]; cbn [app].
    + intros _. rewrite ES. split; cbn [nodes head calls].
      * eapply path_ext with (ns := nodes s); [rewrite length_set; lia| |exact P]. intros y Hy. rewrite nx_set by assumption. destruct (Nat.eqb_spec x y); [subst; contradiction|reflexivity].
      * intros y I. rewrite nx_set by assumption. apply MID in I. destruct I as [I|I]; [injection I as ->; rewrite Nat.eqb_refl; reflexivity|].
        destruct (Nat.eqb_spec x y); [reflexivity|]. auto.
      * intros y e I. rewrite nx_set by assumption. apply MID in I. destruct I as [I|I]; [discriminate|].
        destruct (Nat.eqb_spec x y); [subst; exfalso; eapply NE; eauto|]. auto.
    + intros _. rewrite ES. split; cbn [nodes head calls]; auto.
      * intros y I. apply MID in I. destruct I as [I|I]; [discriminate|]. auto.
      * intros y e I. apply MID in I. destruct I as [I|I]; [|auto]. injection I as -> ->. apply E. rewrite EC. apply in_or_app. right. left. reflexivity.
    + destruct (same (head s) e) eqn:SE; cbn [app].
      * intros NB. apply negb_true_iff in NB. apply same_eq in SE. rewrite ER. split; cbn [nodes head calls path].
        -- split; [reflexivity|]. split; [exact BX|]. rewrite (K x e); [rewrite <- SE; exact P|]. rewrite EC. apply in_or_app. right. left. reflexivity.
        -- intros y I. exfalso. eapply between_false; eauto.
        -- intros y e' I. auto.
      * intros _. rewrite ES. split; cbn [nodes head calls]; auto.
        -- intros y I. apply MID in I. destruct I as [I|I]; [discriminate|]. auto.
        -- intros y e' I. apply MID in I. destruct I as [I|I]; [discriminate|]. auto.
Qed.

Lemma run_U cs : forall s pub, G s pub -> U s pub -> undisturbed s cs = true -> U (run s cs) (returned s pub cs).
Proof.
  induction cs as [|c cs IH]; intros s pub g u; cbn; [auto|]. intros H. apply andb_prop in H. destruct H as [H1 H2].
  apply IH; auto using step_G, step_U.
Qed.
Lemma U_init : U init [].
Proof. split; cbn; auto; intros; contradiction. Qed.

Lemma undisturbed_all cs : undisturbed init cs = true -> let s := run init cs in let l := returned init [] cs in
  NoDup l /\ (forall x, x < length (nodes s) -> ~ In x (map fst (calls s)) -> In x l) /\
  forall res, invoke s res = Some (ran res (callbacks (funcs s l)), result res (callbacks (funcs s l))).
Proof.
  intros H s l. destruct (any_schedule cs) as (N & A & _). fold s l in N, A. split; [exact N|]. split; [exact A|].
  intros res. destruct (run_U cs init [] G_init U_init H) as [P _ _]. fold s l in P. apply invoke_of_path; [exact P|].
  destruct (run_G cs init [] G_init) as [_ A' _ _ _]. fold s l in A'.
  rewrite <- (seq_length (length (nodes s)) 0). apply NoDup_incl_length; [exact N|].
  intros x Hx. apply in_seq. cbn. split; [lia|]. apply A'. apply in_or_app; auto.
Qed.

(** ** one after the other *)
Lemma run_app a b s : run s (a ++ b) = run (run s a) b.
Proof. apply fold_left_app. Qed.
Lemma returned_app a : forall b s acc, returned s acc (a ++ b) = returned (run s a) (returned s acc a) b.
Proof. induction a as [|c a IH]; intros; cbn [app returned run fold_left]; [reflexivity|]. apply IH. Qed.
Lemma undisturbed_app a : forall b s, undisturbed s (a ++ b) = undisturbed s a && undisturbed (run s a) b.
Proof. induction a as [|c a IH]; intros; cbn [app undisturbed run fold_left]; [reflexivity|]. rewrite IH, andb_assoc. reflexivity. Qed.

Lemma same_refl h : same h h = true.
Proof. destruct h; cbn; auto. apply Nat.eqb_refl. Qed.

Lemma four s f acc : calls s = [] ->
  let cs := [Register f; Run 0; Run 0; Run 0] in
  calls (run s cs) = [] /\ undisturbed s cs = true /\ returned s acc cs = length (nodes s) :: acc /\
  map func (nodes (run s cs)) = map func (nodes s) ++ [f].
Proof.
  destruct s as [ns h cl]. cbn [calls]. intros ->. cbn [run fold_left step nodes calls head nth_error set_nth remove_nth returned returned_by undisturbed between existsb snd app].
  rewrite !same_refl. cbn. repeat split; auto.
  rewrite nth_error_app2, Nat.sub_diag by lia. cbn.
  clear. induction ns as [|n ns IH]; cbn; [reflexivity|]. rewrite IH. reflexivity.
Qed.

Lemma sequential_ok fs : let s := run init (sequential fs) in
  calls s = [] /\ undisturbed init (sequential fs) = true /\ returned init [] (sequential fs) = rev (seq 0 (length fs)) /\ map func (nodes s) = fs.
Proof.
  induction fs as [|f fs IH] using rev_ind; [cbn; auto|].
  unfold sequential in *. rewrite flat_map_app. cbn [flat_map]. rewrite app_nil_r. destruct IH as (I1 & I2 & I3 & I4).
  rewrite run_app, undisturbed_app, returned_app, I2, I3.
  destruct (four _ f (rev (seq 0 (length fs))) I1) as (F1 & F2 & F3 & F4).
  split; [exact F1|]. split; [exact F2|]. split.
  - rewrite F3. rewrite <- (map_length func), I4, app_length. cbn. rewrite Nat.add_1_r, seq_S, rev_app_distr. reflexivity.
  - rewrite F4, I4. reflexivity.
Qed.

Lemma funcs_seq s : funcs s (seq 0 (length (nodes s))) = map func (nodes s).
Proof.
  unfold funcs. generalize (nodes s). intros ns. assert (forall pre, map (fun x => match nth_error (pre ++ ns) x with Some nd => func nd | None => None end) (seq (length pre) (length ns)) = map func ns) as H.
  - induction ns as [|n ns IH]; intros pre; cbn [length seq map]; [reflexivity|]. rewrite nth_error_app2, Nat.sub_diag by lia. cbn. f_equal.
    specialize (IH (pre ++ [n])). rewrite app_length, Nat.add_1_r, <- app_assoc in IH. exact IH.
  - exact (H []).
Qed.

Lemma callbacks_rev fs : callbacks (rev fs) = rev (callbacks fs).
Proof.
  induction fs as [|f fs IH]; cbn; [reflexivity|]. unfold callbacks in *. rewrite flat_map_app, IH. cbn. destruct f; cbn; rewrite ?app_nil_r; reflexivity.
Qed.

Lemma sequential_invoke fs res : let order := rev (callbacks fs) in
  invoke (run init (sequential fs)) res = Some (ran res order, result res order).
Proof.
  intros order. destruct (sequential_ok fs) as (_ & I2 & I3 & I4). destruct (undisturbed_all _ I2) as (_ & _ & H). rewrite H, I3.
  unfold funcs. rewrite map_rev. fold (funcs (run init (sequential fs)) (seq 0 (length fs))).
  replace (length fs) with (length (nodes (run init (sequential fs)))) by (rewrite <- I4 at 2; apply eq_sym, map_length).
  rewrite funcs_seq, I4, callbacks_rev. reflexivity.
Qed.
Lemma sequential_exists fs : exists_ (run init (sequential fs)) = true <-> fs <> [].
Proof.
  destruct (sequential_ok fs) as (_ & I2 & I3 & I4). destruct (run_G (sequential fs) init [] G_init) as [_ _ H _ _]. unfold exists_. rewrite H, I3.
  destruct fs as [|f fs] using rev_ind; cbn; [split; [discriminate|congruence]|].
  rewrite app_length, Nat.add_1_r, seq_S, rev_app_distr. cbn. split; [|auto]. intros _. destruct fs; discriminate.
Qed.
