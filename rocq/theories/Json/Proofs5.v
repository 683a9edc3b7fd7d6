(** Every document of the grammar is read as its value: nesting, and whole
    documents. *)
From Coq Require Import NArith ZArith List Bool Lia ZifyBool ZifyNat ZifyN.
From Verif Require Import Json.Model Json.Spec Json.Proofs Json.Proofs2 Json.Proofs3 Json.Proofs4.
Import ListNotations.
Local Open Scope N_scope.

Scheme json_mind := Minimality for json Sort Prop
  with elements_mind := Minimality for elements Sort Prop
  with members_mind := Minimality for members Sort Prop.
Combined Scheme json_both from json_mind, elements_mind, members_mind.

Definition arr_top (a : list jv) : frame := mkf S_eatws S_array (JArr a) None.
Definition obj_top (m : list (bytes * jv)) : frame := mkf S_eatws S_object_field_start (JObj m) None.
Definition val_top (m : list (bytes * jv)) (k : bytes) : frame := mkf S_eatws S_object_value (JObj m) (Some k).

Lemma arr_inv : forall t d a, Inv t -> Inv (frames d (arr_top a) (below t)).
Proof.
  intros t d a (_ & W & D). split; [|split; [exact W|exact D]].
  unfold frame_ok. cbn. unfold resume, is_arr. split; [tauto|eauto].
Qed.
Lemma obj_inv : forall t d a, Inv t -> Inv (frames d (obj_top a) (below t)).
Proof.
  intros t d a (_ & W & D). split; [|split; [exact W|exact D]].
  unfold frame_ok. cbn. unfold resume, is_obj. split; [tauto|eauto].
Qed.
Lemma val_inv : forall t d m k, Inv t -> Inv (frames d (val_top m k) (below t)).
Proof.
  intros t d m k (_ & W & D). split; [|split; [exact W|exact D]].
  unfold frame_ok. cbn. unfold resume, is_obj. split; [tauto|]. split; [eauto|discriminate].
Qed.
Lemma done_inv' : forall t d o, Inv t -> Inv (frames d (done o) (below t)).
Proof. intros t d o (_ & W & D). split; [|split; [exact W|exact D]]. unfold frame_ok. cbn. unfold resume. tauto. Qed.

Definition add_all (os : list (bytes * jv)) (m : list (bytes * jv)) : list (bytes * jv) :=
  fold_left (fun m x => object_add m (fst x) (snd x)) os m.
Definition mean2 (x : bytes * jv) : bytes * value := (fst x, meaning (snd x)).

Definition key_eq (a b : bytes) : bool := if list_eq_dec N.eq_dec a b then true else false.

Lemma add_all_spec : forall os m,
  map mean2 (add_all os m)
  = filter (fun x => negb (existsb (fun y => key_eq (fst y) (fst x)) (map mean2 os))) (map mean2 m)
    ++ last_wins (map mean2 os).
Proof.
  induction os as [|x os IH]; intros m.
  - cbn [add_all fold_left map last_wins existsb negb]. rewrite app_nil_r.
    induction (map mean2 m) as [|y l IHl]; [reflexivity|]. cbn [filter]. f_equal. exact IHl.
  - cbn [add_all fold_left]. fold (add_all os (object_add m (fst x) (snd x))). rewrite IH.
    unfold object_add. rewrite map_app, filter_app. cbn [map last_wins].
    change (mean2 (fst x, snd x)) with (fst x, meaning (snd x)).
    change (mean2 x) with (fst x, meaning (snd x)).
    rewrite <- app_assoc. f_equal.
    + induction m as [|y m IHm]; [reflexivity|].
      assert (F : forall z : bytes * value,
        existsb (fun y0 : bytes * value => key_eq (fst y0) (fst z)) ((fst x, meaning (snd x)) :: map mean2 os)
        = key_eq (fst x) (fst z) || existsb (fun y0 : bytes * value => key_eq (fst y0) (fst z)) (map mean2 os))
        by reflexivity.
      cbn [map]. cbn [filter]. rewrite F, <- IHm. change (fst (mean2 y)) with (fst y).
      assert (G : forall b : bool, key_eq (fst x) (fst y) = b ->
        (if list_eq_dec N.eq_dec (fst y) (fst x) then true else false) = b).
      { intros b <-. unfold key_eq.
        destruct (list_eq_dec N.eq_dec (fst y) (fst x)), (list_eq_dec N.eq_dec (fst x) (fst y)); congruence. }
      destruct (key_eq (fst x) (fst y)) eqn:K; specialize (G _ eq_refl); unfold bytes in G; unfold bytes; rewrite G;
        cbn [negb orb map filter]; reflexivity.
    + cbn [filter fst]. 
      change (fun m' : bytes * value => if list_eq_dec N.eq_dec (fst m') (fst x) then true else false)
        with (fun y : bytes * value => key_eq (fst y) (fst x)).
      destruct (existsb _ _); reflexivity.
Qed.

Section Run.
Variable e : env.
Hypothesis E : env_ok e.

Let P (n : nat) (s : bytes) (v : value) : Prop :=
  forall t, Inv t -> top t = fresh -> (depth t + n <= 31)%nat -> reads e t s v.
Let P0 (n : nat) (s : bytes) (l : list value) : Prop :=
  forall t a, Inv t -> top t = arr_top a -> (depth t + S n <= 31)%nat ->
  exists t' os, dsteps e t (s ++ [93]) = Some t' /\ below t' = below t
    /\ top t' = done (JArr (a ++ os)) /\ map meaning os = l.
Let P1 (n : nat) (s : bytes) (l : list (bytes * value)) : Prop :=
  forall t m, Inv t -> top t = obj_top m -> (depth t + S n <= 31)%nat ->
  exists t' os, dsteps e t (s ++ [125]) = Some t' /\ below t' = below t
    /\ top t' = done (JObj (add_all os m)) /\ map mean2 os = l.

(** the opening bracket *)
Lemma open_arr : forall t, Inv t -> top t = fresh ->
  dsteps e t [91] = Some (frames t (arr_top []) (below t)).
Proof.
  intros t I T. destruct t as [f fs p db sp uc q er sta]. cbn in T. subst f.
  erewrite dsteps_one; [reflexivity| |discriminate]. unfold delta.
  erewrite delta_dr; [|exact I|reflexivity]. apply delta_dn. reflexivity.
Qed.
Lemma open_obj : forall t, Inv t -> top t = fresh ->
  dsteps e t [123] = Some (frames t (obj_top []) (below t)).
Proof.
  intros t I T. destruct t as [f fs p db sp uc q er sta]. cbn in T. subst f.
  erewrite dsteps_one; [reflexivity| |discriminate]. unfold delta.
  erewrite delta_dr; [|exact I|reflexivity]. apply delta_dn. reflexivity.
Qed.

(** one element, up to the character after it *)
Lemma element_run : forall n w1 s w2 v, ws w1 -> json e none n s v -> P n s v -> ws w2 ->
  forall t a c, Inv t -> top t = arr_top a -> (depth t + S n <= 31)%nat -> c <> 0 -> number_char c = false ->
  exists d o, top d = done o /\ meaning o = v /\ Inv d /\
    below d = mkf S_array_add S_array (JArr a) None :: below t /\
    forall r, dsteps e t (w1 ++ s ++ w2 ++ c :: r) = dsteps e d (c :: r).
Proof.
  intros n w1 s w2 v W1 H IH W2 t a c I T L C0 C1.
  destruct (json_starts e n s v H) as (x & r & -> & Sx).
  set (p := frames t fresh (mkf S_array_add S_array (JArr a) None :: below t)).
  assert (Ip : Inv p).
  { apply fresh_inv.
    - constructor; [left; split; [reflexivity|exists a; reflexivity]|apply I].
    - unfold MAX_DEPTH. lia. }
  destruct (IH p Ip eq_refl) as (t1 & o & D1 & B1 & M1 & K1 & _).
  { unfold p, depth. cbn [frames below length]. unfold depth in L. lia. }
  destruct (closes_ws e t1 o w2 c K1 W2 C0 C1) as (d & A1 & A2 & A3 & A4).
  exists d, o. split; [exact A1|]. split; [exact M1|]. split; [exact A3|].
  split; [rewrite A2, B1; reflexivity|]. intros r'.
  rewrite dsteps_app, (ws_run e w1 t W1) by (rewrite T; reflexivity).
  change ((x :: r) ++ w2 ++ c :: r') with (x :: (r ++ w2 ++ c :: r')).
  rewrite (dsteps_same e t p x).
  - change (x :: r ++ w2 ++ c :: r') with ((x :: r) ++ w2 ++ c :: r').
    rewrite dsteps_app, D1. apply A4.
  - apply push_arr; [exact I|exact T|exact Sx|lia].
Qed.

(** one member, up to the character after it *)
Lemma member_run : forall n w1 ks k w2 w3 s w4 v,
  ws w1 -> chars none ks k -> ws w2 -> ws w3 -> json e none n s v -> P n s v -> ws w4 ->
  forall t m c, Inv t -> top t = obj_top m -> (depth t + S n <= 31)%nat -> c <> 0 -> number_char c = false ->
  exists d o, top d = done o /\ meaning o = v /\ Inv d /\
    below d = mkf S_object_value_add S_object_value (JObj m) (Some k) :: below t /\
    forall r, dsteps e t (w1 ++ [34] ++ ks ++ [34] ++ w2 ++ [58] ++ w3 ++ s ++ w4 ++ c :: r) = dsteps e d (c :: r).
Proof.
  intros n w1 ks k w2 w3 s w4 v W1 Hk W2 W3 H IH W4 t m c I T L C0 C1.
  destruct (json_starts e n s v H) as (x & r & -> & Sx).
  (* the name *)
  set (t1 := set_state (set_pb (set_quote (set_top t (mkf S_object_field_start S_object_field_start (JObj m) None)) 34) [])
                       S_object_field).
  assert (D1 : forall r0, dsteps e t (34 :: r0) = dsteps e t1 r0).
  { intros r0. apply dsteps_one; [|discriminate]. unfold delta.
    clear - I T. unfold t1. destruct t as [f fs p db sp uc q er sta]. cbn [top] in T. subst f.
    erewrite delta_dr; [|exact I|reflexivity]. apply delta_dn. reflexivity. }
  destruct (chars_run e ks k Hk t1) as (t2 & D2 & (N1 & N2 & N3 & N4 & N5 & N6) & F).
  { split; [right; reflexivity|reflexivity]. }
  set (t3 := set_state (set_saved (set_field (append t2 []) (Some (cstr (pb (append t2 []))))) S_object_field_end) S_eatws).
  assert (D3 : forall r0, dsteps e t2 (34 :: r0) = dsteps e t3 r0).
  { intros r0. apply dsteps_one; [|discriminate]. apply delta_dn. unfold dswitch. rewrite N2, N6. reflexivity. }
  assert (T3 : top t3 = mkf S_eatws S_object_field_end (JObj m) (Some k)).
  { unfold t3, set_state, set_saved, set_field, set_top, append, set_pb.
    cbn [top state saved current field_name pb]. rewrite N3, N1, app_nil_r. cbn [pb t1].
    change (pb t1) with (@nil N). cbn [app]. rewrite (cstr_id k F). reflexivity. }
  assert (B3 : below t3 = below t).
  { unfold t3, set_state, set_saved, set_field, set_top, append, set_pb. cbn [below]. rewrite N5. reflexivity. }
  set (t4 := frames t3 (val_top m k) (below t)).
  assert (I3 : Inv t3).
  { destruct I as (_ & IW & ID). split; [|split; [rewrite B3; exact IW|unfold depth; rewrite B3; exact ID]].
    unfold frame_ok. rewrite T3. cbn. unfold resume, is_obj. split; [tauto|]. split; [eauto|discriminate]. }
  assert (D4 : forall r0, dsteps e t3 (58 :: r0) = dsteps e t4 r0).
  { intros r0. apply dsteps_one; [|discriminate]. unfold delta.
    unfold t4. rewrite <- B3. clear - I3 T3. clearbody t3. destruct t3 as [f fs p db sp uc q er sta].
    cbn [top] in T3. subst f.
    erewrite delta_dr; [|exact I3|reflexivity]. apply delta_dn. reflexivity. }
  assert (I4 : Inv t4) by (apply val_inv; exact I).
  set (p := frames t4 fresh (mkf S_object_value_add S_object_value (JObj m) (Some k) :: below t4)).
  assert (Ip : Inv p).
  { apply fresh_inv.
    - constructor; [right; split; [reflexivity|split; [exists m; reflexivity|discriminate]]|apply I4].
    - unfold MAX_DEPTH. change (depth t4) with (depth t). lia. }
  destruct (IH p Ip eq_refl) as (t5 & o & D5 & B5 & M5 & K5 & _).
  { unfold p, depth. cbn [frames below length t4]. unfold depth in L. cbn [below t4 frames]. lia. }
  destruct (closes_ws e t5 o w4 c K5 W4 C0 C1) as (d & A1 & A2 & A3 & A4).
  exists d, o. split; [exact A1|]. split; [exact M5|]. split; [exact A3|].
  split; [rewrite A2, B5; reflexivity|]. intros r'.
  rewrite dsteps_app, (ws_run e w1 t W1) by (rewrite T; reflexivity).
  cbn [app]. rewrite D1. rewrite dsteps_app, D2, D3.
  rewrite dsteps_app, (ws_run e w2 t3 W2) by (rewrite T3; reflexivity). rewrite D4.
  rewrite dsteps_app, (ws_run e w3 t4 W3) by reflexivity.
  rewrite (dsteps_same e t4 p x).
  - change (x :: r ++ w4 ++ c :: r') with ((x :: r) ++ w4 ++ c :: r').
    rewrite dsteps_app, D5. apply A4.
  - apply push_obj; [exact I4|reflexivity|exact Sx|change (depth t4) with (depth t); lia].
Qed.

Lemma all_run : (forall n s v, json e none n s v -> json e none n s v /\ P n s v) /\
  (forall n s l, elements e none n s l -> P0 n s l) /\ (forall n s l, members e none n s l -> P1 n s l).
Proof.
  apply json_both.
  - intros n. split; [constructor|]. intros t I T L. apply null_run; assumption.
  - intros n. split; [constructor|]. intros t I T L. apply true_run; assumption.
  - intros n. split; [constructor|]. intros t I T L. apply false_run; assumption.
  - intros n s z H R. split; [constructor; assumption|]. intros t I T L. destruct R as [R|[]]. apply int_run; assumption.
  - intros n s z dt d H D Sc. split; [econstructor; eassumption|]. intros t I T L. eapply dbl_run; eassumption.
  - intros n s d H. split; [constructor; assumption|]. intros t I T L. apply str_run; assumption.
  - intros n w W. split; [constructor; assumption|]. intros t I T L.
    set (t1 := frames t (arr_top []) (below t)).
    assert (I1 : Inv t1) by (apply arr_inv; exact I).
    exists (frames t1 (done (JArr [])) (below t)), (JArr []). split; [|split; [reflexivity|split; [reflexivity|split; [|reflexivity]]]].
    + rewrite dsteps_app, (open_arr t I T), dsteps_app. fold t1. rewrite (ws_run e w t1 W) by reflexivity.
      erewrite dsteps_one; [reflexivity| |discriminate]. unfold delta.
      erewrite delta_dr; [|exact I1|reflexivity]. apply delta_dn. reflexivity.
    + apply closes_done; [|reflexivity]. apply done_inv'. exact I.
  - intros n s l H IH. split; [constructor; assumption|]. intros t I T L.
    set (t1 := frames t (arr_top []) (below t)).
    assert (I1 : Inv t1) by (apply arr_inv; exact I).
    destruct (IH t1 [] I1 eq_refl L) as (t2 & os & D & B & T2 & M).
    exists t2, (JArr os). split; [rewrite dsteps_app, (open_arr t I T); exact D|].
    split; [exact B|]. split; [cbn [meaning]; congruence|]. split; [|intros _; exact T2].
    apply closes_done; [|exact T2].
    assert (R1 : resting t1) by (split; discriminate). destruct (dsteps_inv e _ t1 t2 I1 R1 D) as (X & _). exact X.
  - intros n w W. split; [constructor; assumption|]. intros t I T L.
    set (t1 := frames t (obj_top []) (below t)).
    assert (I1 : Inv t1) by (apply obj_inv; exact I).
    exists (frames t1 (done (JObj [])) (below t)), (JObj []). split; [|split; [reflexivity|split; [reflexivity|split; [|reflexivity]]]].
    + rewrite dsteps_app, (open_obj t I T), dsteps_app. fold t1. rewrite (ws_run e w t1 W) by reflexivity.
      erewrite dsteps_one; [reflexivity| |discriminate]. unfold delta.
      erewrite delta_dr; [|exact I1|reflexivity]. apply delta_dn. reflexivity.
    + apply closes_done; [|reflexivity]. apply done_inv'. exact I.
  - intros n s l H IH. split; [constructor; assumption|]. intros t I T L.
    set (t1 := frames t (obj_top []) (below t)).
    assert (I1 : Inv t1) by (apply obj_inv; exact I).
    destruct (IH t1 [] I1 eq_refl L) as (t2 & os & D & B & T2 & M).
    exists t2, (JObj (add_all os [])). split; [rewrite dsteps_app, (open_obj t I T); exact D|].
    split; [exact B|]. split; [|split; [|intros _; exact T2]].
    + cbn [meaning]. f_equal. change (fun e0 : bytes * jv => (fst e0, meaning (snd e0))) with mean2.
      rewrite add_all_spec, M. reflexivity.
    + apply closes_done; [|exact T2].
      assert (R1 : resting t1) by (split; discriminate). destruct (dsteps_inv e _ t1 t2 I1 R1 D) as (X & _). exact X.
  - intros n w1 s w2 v W1 H [Hj IH] W2 t a I T L.
    destruct (element_run n w1 s w2 v W1 Hj IH W2 t a 93 I T L) as (d & o & A1 & A2 & A3 & A4 & A5); [discriminate|reflexivity|].
    exists (frames d (done (JArr (a ++ [o]))) (below t)), [o].
    split; [|split; [reflexivity|split; [reflexivity|cbn [map]; congruence]]].
    replace ((w1 ++ s ++ w2) ++ [93]) with (w1 ++ s ++ w2 ++ [93]) by (rewrite <- !app_assoc; reflexivity).
    rewrite A5. rewrite (arr_end e d o a (below t) [] A3 A1 A4). reflexivity.
  - intros n w1 s w2 v r l W1 H [Hj IH] W2 Hr IHr t a I T L.
    destruct (element_run n w1 s w2 v W1 Hj IH W2 t a 44 I T L) as (d & o & A1 & A2 & A3 & A4 & A5); [discriminate|reflexivity|].
    set (t1 := frames d (arr_top (a ++ [o])) (below t)).
    destruct (IHr t1 (a ++ [o])) as (t2 & os & D & B & T2 & M); [apply arr_inv; exact I|reflexivity|exact L|].
    exists t2, (o :: os). split; [|split; [exact B|split; [rewrite T2, <- app_assoc; reflexivity|cbn [map]; congruence]]].
    replace ((w1 ++ s ++ w2 ++ [44] ++ r) ++ [93]) with (w1 ++ s ++ w2 ++ 44 :: (r ++ [93]))
      by (rewrite <- !app_assoc; reflexivity).
    rewrite A5. rewrite (arr_comma e d o a (below t) _ A3 A1 A4). exact D.
  - intros n w1 ks k w2 w3 s w4 v W1 Hk W2 W3 H [Hj IH] W4 t m I T L.
    destruct (member_run n w1 ks k w2 w3 s w4 v W1 Hk W2 W3 Hj IH W4 t m 125 I T L) as (d & o & A1 & A2 & A3 & A4 & A5); [discriminate|reflexivity|].
    exists (frames d (done (JObj (object_add m k o))) (below t)), [(k, o)].
    split; [|split; [reflexivity|split; [reflexivity|cbn [map]; unfold mean2; cbn [fst snd]; congruence]]].
    replace ((w1 ++ [34] ++ ks ++ [34] ++ w2 ++ [58] ++ w3 ++ s ++ w4) ++ [125])
      with (w1 ++ [34] ++ ks ++ [34] ++ w2 ++ [58] ++ w3 ++ s ++ w4 ++ [125]) by (rewrite <- !app_assoc; reflexivity).
    rewrite A5. rewrite (obj_end e d o m k (below t) [] A3 A1 A4). reflexivity.
  - intros n w1 ks k w2 w3 s w4 v r l W1 Hk W2 W3 H [Hj IH] W4 Hr IHr t m I T L.
    destruct (member_run n w1 ks k w2 w3 s w4 v W1 Hk W2 W3 Hj IH W4 t m 44 I T L) as (d & o & A1 & A2 & A3 & A4 & A5); [discriminate|reflexivity|].
    set (t1 := frames d (obj_top (object_add m k o)) (below t)).
    destruct (IHr t1 (object_add m k o)) as (t2 & os & D & B & T2 & M); [apply obj_inv; exact I|reflexivity|exact L|].
    exists t2, ((k, o) :: os). split; [|split; [exact B|split; [rewrite T2; reflexivity|cbn [map]; unfold mean2 at 1; cbn [fst snd]; congruence]]].
    replace ((w1 ++ [34] ++ ks ++ [34] ++ w2 ++ [58] ++ w3 ++ s ++ w4 ++ [44] ++ r) ++ [125])
      with (w1 ++ [34] ++ ks ++ [34] ++ w2 ++ [58] ++ w3 ++ s ++ w4 ++ 44 :: (r ++ [125])) by (rewrite <- !app_assoc; reflexivity).
    rewrite A5. rewrite (obj_comma e d o m k (below t) _ A3 A1 A4). exact D.
Qed.

Lemma value_run : forall n s v t, json e none n s v -> Inv t -> top t = fresh -> (depth t + n <= 31)%nat ->
  reads e t s v.
Proof. intros n s v t H I T L. apply (proj1 all_run n s v H); assumption. Qed.

(** * Whole documents *)

Lemma skip_ws : forall w c r, ws w -> isspace c = false -> skip (w ++ c :: r) = c :: r.
Proof.
  induction w as [|x w IH]; intros c r W H; cbn [app].
  - unfold skip. rewrite H. reflexivity.
  - unfold skip. destruct (blank_space x (Forall_inv W)) as [-> _]. exact (IH c r (Forall_inv_tail W) H).
Qed.

Lemma container_starts : forall n s v, json e none n s v -> container v ->
  exists c r, s = c :: r /\ (c =? 123) || (c =? 91) = true /\ isspace c = false.
Proof.
  intros n s v H C. destruct H; cbn in C; try contradiction;
    (eexists _, _; split; [reflexivity|split; reflexivity]).
Qed.

Lemma document_steps : forall n s v, document e none n s v -> (n <= 31)%nat ->
  exists c r t' o, skip s = c :: r /\ (c =? 123) || (c =? 91) = true /\
    (forall x, skip (s ++ x) = (c :: r) ++ x) /\
    dsteps e (set_started (set_err tok_new E_success)) (c :: r) = Some t' /\
    below t' = [] /\ top t' = done o /\ err t' = E_success /\ meaning o = v.
Proof.
  intros n s v (w1 & b & w2 & -> & W1 & H & W2 & C) L.
  destruct (container_starts n b v H C) as (c & r & -> & Hc & Sc).
  set (t := set_started (set_err tok_new E_success)).
  assert (I : Inv t) by exact new_inv.
  destruct (value_run n (c :: r) v t H I eq_refl) as (t' & o & D & B & M & K & T); [exact L|].
  exists c, (r ++ w2), t', o. split; [cbn [app]; apply skip_ws; assumption|].
  split; [exact Hc|]. split; [intros x; rewrite <- !app_assoc; cbn [app]; rewrite skip_ws by assumption;
    rewrite app_assoc; reflexivity|].
  specialize (T C).
  destruct (dsteps_inv e _ t t' I (resting_fresh t eq_refl) D) as (_ & _ & Er & _).
  split; [|split; [exact B|split; [exact T|split; [exact Er|exact M]]]].
  change (c :: r ++ w2) with ((c :: r) ++ w2). rewrite dsteps_app, D. apply ws_run; [exact W2|rewrite T; reflexivity].
Qed.

Lemma document_len : forall n s v, document e none n s v -> (n <= 31)%nat -> gives (parse_len e s) [] v.
Proof.
  intros n s v H L. destruct (document_steps n s v H L) as (c & r & t' & o & A1 & A2 & _ & A4 & A5 & A6 & A7 & A8).
  unfold parse_len. rewrite parse_ex_dparse by (exact new_inv || (split; discriminate)). unfold dparse.
  change (started (set_err tok_new E_success)) with false. cbn match. rewrite A1, A2.
  pose proof (drun_steps e true (c :: r) [] _ _ A4) as D. rewrite app_nil_r in D. rewrite D.
  cbn [drun]. unfold pop_fail. rewrite A5, A6. unfold finish_parse. cbn [done state saved N.eqb].
  unfold gives. cbn [err set_err]. eexists _, o. split; [cbn [top set_err]; rewrite A6; reflexivity|].
  split; [reflexivity|exact A8].
Qed.

(** a whole document, however it goes on *)
Lemma document_more : forall n s v x y, document e none n s v -> (n <= 31)%nat ->
  isspace x = false -> x <> 47 -> forall b, gives (parse_ex e b tok_new (s ++ x :: y)) (x :: y) v.
Proof.
  intros n s v x y H L X1 X2 b.
  destruct (document_steps n s v H L) as (c & r & t' & o & A1 & A2 & A3 & A4 & A5 & A6 & A7 & A8).
  rewrite parse_ex_dparse by (exact new_inv || (split; discriminate)). unfold dparse.
  change (started (set_err tok_new E_success)) with false. cbn match.
  rewrite A3. cbn [app]. rewrite A2. change (c :: r ++ x :: y) with ((c :: r) ++ x :: y).
  rewrite (drun_steps e b (c :: r) (x :: y) _ _ A4).
  cbn [drun].
  assert (D : delta e t' x = DS (set_state t' S_finish)).
  { unfold delta. rewrite dredo_S. unfold dswitch at 1. rewrite A6. cbn [done state saved].
    rewrite X1. apply N.eqb_neq in X2. rewrite X2. rewrite dredo_S. unfold dswitch.
    cbn [set_state set_top top state below]. rewrite A5. reflexivity. }
  rewrite D. unfold finish_parse. cbn [set_state set_top top state saved].
  assert (F : (if x =? 0 then set_state t' S_finish else set_state t' S_finish) = set_state t' S_finish)
    by (destruct (x =? 0); reflexivity).
  unfold set_state, set_top in *. cbn [err] in *.
  destruct (x =? 0); cbn [err top current]; rewrite A7, A6; cbn [current done];
    (eexists _, o; split; [reflexivity|split; [first [exact A7|reflexivity]|exact A8]]).
Qed.

Lemma document_parse : forall n s v, document e none n s v -> (n <= 31)%nat -> gives (parse e s) [0] v.
Proof.
  intros n s v H L. unfold parse. apply (document_more n s v 0 [] H L); [reflexivity|discriminate].
Qed.
End Run.
