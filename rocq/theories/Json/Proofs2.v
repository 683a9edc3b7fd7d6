(** Safety of the parser, and feeding it in pieces. *)
From Coq Require Import NArith ZArith List Bool Lia ZifyBool ZifyNat ZifyN.
From Verif Require Import Json.Model Json.Spec Json.Proofs.
Import ListNotations.
Local Open Scope N_scope.

Lemma dswitch_ds_rest : forall e t obj c t', dswitch e t obj c = DS t' -> resting t'.
Proof.
  intros e t obj c t' H.
  assert (A : state (top t') = state (top t) /\ state (top t) <> S_array_add /\ state (top t) <> S_object_value_add).
  { destruct t as [f fs p db sp uc q er sta]. destruct f as [s sv cu fn].
    unfold dswitch in H. cbn [top state] in *.
    destruct s; cbn [top state below current field_name] in H;
      repeat match type of H with
             | (if ?x then _ else _) = _ => destruct x
             | match ?x with _ => _ end = _ => destruct x
             end; try discriminate H;
      (injection H as <-; split; [reflexivity|split; discriminate]). }
  destruct A as (A & B & C). unfold resting. rewrite A. split; assumption.
Qed.

Lemma dredo_ds_rest : forall n e t obj c t', dredo n e t obj c = DS t' -> resting t'.
Proof.
  induction n as [|n IH]; intros e t obj c t' H; [discriminate|].
  cbn [dredo] in H. destruct (dswitch e t obj c) as [x|x o|x| |] eqn:E; try discriminate.
  - exact (IH _ _ _ _ _ H).
  - injection H as <-. exact (dswitch_ds_rest _ _ _ _ _ E).
Qed.

Lemma delta_ok : forall e t c, Inv t ->
  match delta e t c with
  | DN t' | DS t' => Inv t' /\ resting t'
  | _ => False
  end.
Proof.
  intros e t c I. unfold delta.
  pose proof (dredo_inv 12 e t JNull c I) as H.
  pose proof (dredo_ds_rest 12 e t JNull c) as K.
  destruct (dredo 12 e t JNull c).
  - apply H. pose proof (rank_bound t); lia.
  - apply H. pose proof (rank_bound t); lia.
  - split; [apply H; pose proof (rank_bound t); lia|exact (K _ eq_refl)].
  - apply H. pose proof (rank_bound t); lia.
  - apply H. pose proof (rank_bound t); lia.
Qed.

Definition good (r : result) : Prop :=
  match r with Ret t _ _ => Inv t /\ resting t | Wrong => False end.

Lemma finish_good : forall t c r, Inv t -> resting t -> good (finish_parse (Out t c r)).
Proof.
  intros t c r I R. unfold finish_parse, good.
  destruct (c =? 0); [|split; assumption].
  destruct (state (top t)) eqn:?, (saved (top t)) eqn:?; split; assumption.
Qed.

Lemma drun_good : forall inp e bnd t, Inv t -> resting t ->
  (bnd = true \/ In 0 inp) -> good (drun e bnd t inp).
Proof.
  induction inp as [|c r IH]; intros e bnd t I R B.
  - destruct B as [-> |[]]. cbn [drun]. unfold pop_fail. apply finish_good; assumption.
  - cbn [drun]. pose proof (delta_ok e t c I) as D.
    destruct (delta e t c) as [t'|t' o|t'| |]; try contradiction.
    + destruct D as [I' R']. destruct (c =? 0) eqn:N0.
      * apply finish_good; assumption.
      * apply IH; [exact I'|exact R'|]. destruct B as [B|[B|B]]; auto.
        subst c. discriminate.
    + destruct D as [I' R']. apply finish_good; assumption.
Qed.

Lemma skip_in0 : forall inp, In 0 inp -> In 0 (skip inp).
Proof.
  induction inp as [|c r IH]; intros H; [destruct H|].
  unfold skip. destruct (isspace c) eqn:E.
  - destruct H as [-> |H]; [discriminate|]. exact (IH H).
  - exact H.
Qed.

Lemma parse_good : forall e bnd t inp, Inv t -> resting t ->
  (bnd = true \/ In 0 inp) -> good (parse_ex e bnd t inp).
Proof.
  intros e bnd t inp I R B. rewrite parse_ex_dparse by assumption. unfold dparse.
  destruct (started (set_err t E_success)).
  - apply drun_good; [exact I|exact R|exact B].
  - assert (B' : bnd = true \/ In 0 (skip inp)) by (destruct B; [auto|right; apply skip_in0; assumption]).
    destruct (skip inp) as [|c r].
    + destruct B' as [-> |[]]. apply finish_good; [exact I|exact R].
    + destruct ((c =? 123) || (c =? 91)).
      * apply drun_good; [exact I|exact R|exact B'].
      * apply finish_good; [exact I|exact R].
Qed.

Lemma reset_inv : forall t, Inv (tok_reset t) /\ resting (tok_reset t).
Proof.
  intros t. split; [|split; discriminate].
  unfold Inv, frame_ok, tok_reset, fresh, depth, MAX_DEPTH. cbn.
  split; [|split]; [unfold resume; tauto|constructor|lia].
Qed.

Lemma calls_inv : forall e l t, Inv t -> resting t ->
  exists t', do_calls e t l = Some t' /\ Inv t' /\ resting t'.
Proof.
  intros e. induction l as [|c l IH]; intros t I R; cbn [do_calls].
  - eauto.
  - destruct c as [s|s|]; cbn [do_call].
    + pose proof (parse_good e true t s I R (or_introl eq_refl)) as G.
      destruct (parse_ex e true t s); [|contradiction]. destruct G. apply IH; assumption.
    + pose proof (parse_good e false t (s ++ [0]) I R) as G.
      destruct (parse_ex e false t (s ++ [0])).
      * destruct G; [right; apply in_or_app; right; left; reflexivity|]. apply IH; assumption.
      * elim G. right; apply in_or_app; right; left; reflexivity.
    + destruct (reset_inv t). apply IH; assumption.
Qed.

Lemma calls_safe : forall e l, exists t, do_calls e tok_new l = Some t /\ (depth t < 32)%nat.
Proof.
  intros e l. destruct (calls_inv e l tok_new new_inv) as (t & A & B & _).
  - split; discriminate.
  - exists t. split; [exact A|]. apply B.
Qed.

(** * Pieces *)

(** What the machine reaches, still inside the document. *)
Lemma set_err_top : forall t x, top (set_err t x) = top t.
Proof. reflexivity. Qed.

Lemma set_set_err : forall t x y, set_err (set_err t x) y = set_err t y.
Proof. reflexivity. Qed.

Lemma set_err_id : forall t, set_err t (err t) = t.
Proof. destruct t; reflexivity. Qed.

(** delta does not look at err, and keeps it unless it fails *)
Lemma dswitch_err : forall e t obj c,
  match dswitch e t obj c with
  | DN t' | DR t' _ => err t' = err t
  | _ => True
  end.
Proof.
  intros e t obj c. destruct t as [f fs p db sp uc q er sta]. destruct f as [s sv cu fn].
  unfold dswitch. cbn [top state].
  destruct s; cbn [top state below current field_name];
    repeat match goal with
           | |- context [if ?x then _ else _] => destruct x
           end;
    try (destruct (number_object e _ _)); try (destruct fs); try (destruct cu); try (destruct fn);
    first [reflexivity | exact I].
Qed.

Lemma dredo_err : forall n e t obj c t', dredo n e t obj c = DN t' -> err t' = err t.
Proof.
  induction n as [|n IH]; intros e t obj c t' H; [discriminate|].
  cbn [dredo] in H. pose proof (dswitch_err e t obj c) as D.
  destruct (dswitch e t obj c) as [x|x o|x| |]; try discriminate.
  - injection H as <-. exact D.
  - rewrite (IH _ _ _ _ _ H). exact D.
Qed.

Lemma dswitch_started : forall e t obj c,
  match dswitch e t obj c with
  | DN t' | DR t' _ | DS t' => started t' = started t
  | _ => True
  end.
Proof.
  intros e t obj c. destruct t as [f fs p db sp uc q er sta]. destruct f as [s sv cu fn].
  unfold dswitch. cbn [top state].
  destruct s; cbn [top state below current field_name];
    repeat match goal with
           | |- context [if ?x then _ else _] => destruct x
           end;
    try (destruct (number_object e _ _)); try (destruct fs); try (destruct cu); try (destruct fn);
    first [reflexivity | exact I].
Qed.

Lemma dredo_started : forall n e t obj c t', dredo n e t obj c = DN t' -> started t' = started t.
Proof.
  induction n as [|n IH]; intros e t obj c t' H; [discriminate|].
  cbn [dredo] in H. pose proof (dswitch_started e t obj c) as D.
  destruct (dswitch e t obj c) as [x|x o|x| |]; try discriminate.
  - injection H as <-. exact D.
  - rewrite (IH _ _ _ _ _ H). exact D.
Qed.

Lemma dswitch_ds_err : forall e t obj c t', dswitch e t obj c = DS t' ->
  err t' = err t \/ (err t' <> E_continue /\ err t' <> E_success).
Proof.
  intros e t obj c t' H. destruct t as [f fs p db sp uc q er sta]. destruct f as [s sv cu fn].
  unfold dswitch in H. cbn [top state] in *.
  destruct s; cbn [top state below current field_name] in H;
    repeat match type of H with
           | (if ?x then _ else _) = _ => destruct x
           | match ?x with _ => _ end = _ => destruct x
           end; try discriminate H;
    injection H as <-; first [left; reflexivity | right; split; discriminate].
Qed.

Lemma dredo_ds_err : forall n e t obj c t', dredo n e t obj c = DS t' ->
  err t' = err t \/ (err t' <> E_continue /\ err t' <> E_success).
Proof.
  induction n as [|n IH]; intros e t obj c t' H; [discriminate|].
  cbn [dredo] in H. pose proof (dswitch_err e t obj c) as D.
  destruct (dswitch e t obj c) as [x|x o|x| |] eqn:E; try discriminate.
  - rewrite <- D. exact (IH _ _ _ _ _ H).
  - injection H as <-. exact (dswitch_ds_err _ _ _ _ _ E).
Qed.

(** the state after some characters, none of them NUL *)
Fixpoint dsteps (e : env) (t : tok) (s : bytes) : option tok :=
  match s with
  | [] => Some t
  | c :: r =>
      match delta e t c with
      | DN t' => if c =? 0 then None else dsteps e t' r
      | _ => None
      end
  end.

Lemma dsteps_app : forall e a b t,
  dsteps e t (a ++ b) = match dsteps e t a with Some t' => dsteps e t' b | None => None end.
Proof.
  intros e. induction a as [|c a IH]; intros b t; [reflexivity|].
  cbn [dsteps app]. destruct (delta e t c); try reflexivity. destruct (c =? 0); [reflexivity|apply IH].
Qed.

Lemma dsteps_inv : forall e s t t', Inv t -> resting t -> dsteps e t s = Some t' ->
  Inv t' /\ resting t' /\ err t' = err t /\ started t' = started t.
Proof.
  intros e. induction s as [|c s IH]; intros t t' I R H; cbn [dsteps] in H.
  - injection H as <-. auto.
  - pose proof (delta_ok e t c I) as D.
    destruct (delta e t c) as [x|x o|x| |] eqn:E; try discriminate.
    destruct (c =? 0); [discriminate|]. destruct D as [I' R'].
    destruct (IH x t' I' R' H) as (A & B & C & G).
    split; [exact A|]. split; [exact B|].
    unfold delta in E. rewrite (dredo_err _ _ _ _ _ _ E) in C. rewrite (dredo_started _ _ _ _ _ _ E) in G.
    split; assumption.
Qed.

Lemma drun_steps : forall e bnd s r t t', dsteps e t s = Some t' ->
  drun e bnd t (s ++ r) = drun e bnd t' r.
Proof.
  intros e bnd. induction s as [|c s IH]; intros r t t' H; cbn [dsteps] in H.
  - injection H as <-. reflexivity.
  - cbn [app drun]. destruct (delta e t c) as [x|x o|x| |]; try discriminate.
    destruct (c =? 0); [discriminate|]. apply IH. exact H.
Qed.

Lemma drun_continue : forall e s t t1 v rest,
  Inv t -> err t = E_success -> drun e true t s = Ret t1 v rest -> err t1 = E_continue ->
  rest = [] /\ v = None /\ exists t', dsteps e t s = Some t' /\ t1 = set_err t' E_continue.
Proof.
  intros e. induction s as [|c s IH]; intros t t1 v rest I Er H C.
  - cbn [drun] in H. unfold pop_fail, finish_parse in H. cbn [N.eqb] in H.
    injection H as <- <- <-. split; [reflexivity|].
    cbn [err set_err] in *.
    destruct (below t), (state (top t)), (saved (top t)); try discriminate C;
      (split; [reflexivity|exists t; split; reflexivity]).
  - cbn [drun] in H. cbn [dsteps]. pose proof (delta_ok e t c I) as D. unfold delta in *.
    destruct (dredo 12 e t JNull c) as [t'|t' o|t'| |] eqn:E; try contradiction.
    + destruct D as [I' R']. pose proof (dredo_err _ _ _ _ _ _ E) as Er'. rewrite Er in Er'.
      destruct (c =? 0) eqn:N0.
      * exfalso. unfold finish_parse in H. cbn [N.eqb] in H. injection H as H _ _. subst t1.
        destruct (state (top t')), (saved (top t')); cbn [err set_err] in C; congruence.
      * exact (IH t' t1 v rest I' Er' H C).
    + exfalso. destruct D as [I' R'].
      pose proof (dredo_ds_err _ _ _ _ _ _ E) as Er'. rewrite Er in Er'.
      unfold finish_parse in H. injection H as H _ _. subst t1.
      assert (err t' <> E_continue) by (destruct Er' as [Er'|Er']; [rewrite Er'; discriminate|tauto]).
      destruct (c =? 0); [|contradiction].
      destruct (state (top t')), (saved (top t')); cbn [err set_err] in C; congruence.
Qed.

Lemma skip_app : forall a b, skip a <> [] -> skip (a ++ b) = skip a ++ b.
Proof.
  induction a as [|c a IH]; intros b H; [elim H; reflexivity|].
  unfold skip. cbn [app]. unfold skip in H. destruct (isspace c) eqn:E; [exact (IH b H)|reflexivity].
Qed.

Lemma continue_app : forall e t a t1 v rest,
  Inv t -> resting t -> parse_ex e true t a = Ret t1 v rest -> err t1 = E_continue ->
  rest = [] /\ v = None /\ Inv t1 /\ resting t1 /\ started t1 = true /\
  forall b, parse_ex e true t1 b = parse_ex e true t (a ++ b).
Proof.
  intros e t a t1 v rest I R H C.
  assert (G : good (parse_ex e true t a)) by (apply parse_good; auto).
  rewrite H in G. destruct G as [I1 R1].
  rewrite parse_ex_dparse in H by assumption. unfold dparse in H.
  destruct (started (set_err t E_success)) eqn:St.
  - destruct (drun_continue e a (set_err t E_success) t1 v rest I eq_refl H C) as (-> & -> & t' & D & ->).
    destruct (dsteps_inv e a (set_err t E_success) t' I R D) as (_ & _ & Er & St').
    split; [reflexivity|]. split; [reflexivity|]. split; [exact I1|]. split; [exact R1|].
    assert (S1 : started (set_err t' E_continue) = true) by (cbn [started set_err]; rewrite St'; exact St).
    split; [exact S1|]. intros b.
    rewrite !parse_ex_dparse by assumption. unfold dparse.
    rewrite set_set_err. cbn [started set_err] in S1, St |- *. rewrite S1, St.
    rewrite (drun_steps e true a b _ _ D).
    change (err (set_err t E_success)) with E_success in Er. rewrite <- Er, set_err_id. reflexivity.
  - destruct (skip a) as [|c r] eqn:Sk.
    { injection H as H _ _. subst t1. discriminate C. }
    destruct ((c =? 123) || (c =? 91)) eqn:Cs.
    2:{ exfalso. unfold finish_parse in H. injection H as H _ _. subst t1.
        destruct (c =? 0); [|discriminate C]. cbn [top set_err set_started] in C.
        destruct (state (top t)), (saved (top t)); discriminate C. }
    destruct (drun_continue e (c :: r) (set_started (set_err t E_success)) t1 v rest I eq_refl H C)
      as (-> & -> & t' & D & ->).
    destruct (dsteps_inv e (c :: r) (set_started (set_err t E_success)) t' I R D) as (_ & _ & Er & St').
    split; [reflexivity|]. split; [reflexivity|]. split; [exact I1|]. split; [exact R1|].
    assert (S1 : started (set_err t' E_continue) = true) by (cbn [started set_err]; rewrite St'; reflexivity).
    split; [exact S1|]. intros b.
    rewrite !parse_ex_dparse by assumption. unfold dparse.
    rewrite set_set_err. cbn [started set_err] in S1, St |- *. rewrite S1, St.
    rewrite skip_app by (rewrite Sk; discriminate). rewrite Sk. cbn [app]. rewrite Cs.
    change (c :: r ++ b) with ((c :: r) ++ b).
    rewrite (drun_steps e true (c :: r) b _ _ D).
    change (err (set_started (set_err t E_success))) with E_success in Er. rewrite <- Er, set_err_id. reflexivity.
Qed.

(** an early end is the same with more input behind it *)
Lemma drun_early : forall e s t t1 v rest b,
  drun e true t s = Ret t1 v rest -> rest <> [] -> drun e true t (s ++ b) = Ret t1 v (rest ++ b).
Proof.
  intros e. induction s as [|c s IH]; intros t t1 v rest b H N.
  - cbn [drun] in H. unfold pop_fail, finish_parse in H. injection H as _ _ H. congruence.
  - cbn [drun app] in *. destruct (delta e t c) as [t'|t' o|t'| |]; try discriminate.
    + destruct (c =? 0).
      * unfold finish_parse in *. injection H as H1 H2 H3. subst. reflexivity.
      * exact (IH _ _ _ _ b H N).
    + unfold finish_parse in *. injection H as H1 H2 H3. subst. reflexivity.
Qed.

Lemma early_app : forall e t a t1 v rest b,
  Inv t -> resting t -> parse_ex e true t a = Ret t1 v rest -> rest <> [] ->
  parse_ex e true t (a ++ b) = Ret t1 v (rest ++ b).
Proof.
  intros e t a t1 v rest b I R H N.
  rewrite parse_ex_dparse in * by assumption. unfold dparse in *.
  destruct (started (set_err t E_success)).
  - exact (drun_early _ _ _ _ _ _ _ H N).
  - destruct (skip a) as [|c r] eqn:Sk.
    { unfold finish_parse in H. injection H as _ _ H. congruence. }
    rewrite skip_app by (rewrite Sk; discriminate). rewrite Sk. cbn [app].
    destruct ((c =? 123) || (c =? 91)).
    + change (c :: r ++ b) with ((c :: r) ++ b). exact (drun_early _ _ _ _ _ _ _ H N).
    + unfold finish_parse in *. injection H as H1 H2 H3. subst. reflexivity.
Qed.

Definition asks (r : result) : Prop :=
  match r with Ret t None _ => err t = E_continue | _ => False end.

Lemma feed_prefix : forall e ps t, Inv t -> resting t -> ps <> [] ->
  exists qs rs, ps = qs ++ rs /\ qs <> [] /\ feed e t ps = parse_ex e true t (concat qs)
    /\ (rs = [] \/ ~ asks (feed e t ps)).
Proof.
  intros e. induction ps as [|p ps IH]; intros t I R N; [congruence|].
  destruct ps as [|p2 ps].
  - exists [p], []. cbn [feed concat app]. rewrite app_nil_r.
    split; [reflexivity|]. split; [discriminate|]. split; [reflexivity|left; reflexivity].
  - cbn [feed]. destruct (parse_ex e true t p) as [t' v rest|] eqn:E.
    2:{ exists [p], (p2 :: ps). cbn [concat app]. rewrite app_nil_r, E.
        split; [reflexivity|]. split; [discriminate|]. split; [reflexivity|right; intros []]. }
    assert (Stop : (forall x, v = Some x -> True) ->
      (v = None -> err t' <> E_continue) ->
      exists qs rs, p :: p2 :: ps = qs ++ rs /\ qs <> [] /\
        Ret t' v rest = parse_ex e true t (concat qs) /\ (rs = [] \/ ~ asks (Ret t' v rest))).
    { intros _ Hn. exists [p], (p2 :: ps). cbn [concat app]. rewrite app_nil_r, E.
      split; [reflexivity|]. split; [discriminate|]. split; [reflexivity|right].
      unfold asks. destruct v; [tauto|exact (Hn eq_refl)]. }
    destruct v as [o|]; [apply Stop; [trivial|discriminate]|].
    destruct (err t') eqn:Er; try (apply Stop; [trivial|intros _; discriminate]).
    destruct (continue_app e t p t' None rest I R E Er) as (_ & _ & I' & R' & _ & Cont).
    destruct (IH t' I' R') as (qs & rs & Eq & Nq & Ef & As); [discriminate|].
    exists (p :: qs), rs. cbn [app concat].
    split; [f_equal; exact Eq|]. split; [discriminate|].
    rewrite Cont in Ef. split; [exact Ef|exact As].
Qed.
