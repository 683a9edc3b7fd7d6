(** Documents in pieces, truncated documents, numbers through the getters, and
    what the parser does not read. *)
From Coq Require Import NArith ZArith List Bool Lia ZifyBool ZifyNat ZifyN.
From Verif Require Import Json.Model Json.Spec Json.Proofs Json.Proofs2 Json.Proofs3 Json.Proofs4 Json.Proofs5 Json.Proofs6.
Import ListNotations.
Local Open Scope N_scope.

(** * After a complete document *)

Definition after (o : jv) (t : tok) : Prop :=
  below t = [] /\ saved (top t) = S_finish /\ current (top t) = o /\
  In (state (top t)) [S_eatws; S_comment_start; S_comment; S_comment_eol; S_comment_end].

Lemma after_step : forall e o t c t', after o t -> delta e t c = DN t' -> after o t'.
Proof.
  intros e o t c t' (B & S1 & C & St) H. unfold delta in H. rewrite dredo_S in H.
  destruct t as [f fs p db sp uc q er sta]. destruct f as [s sv cu fn].
  cbn [below top saved current state] in *. subst fs sv cu.
  unfold after. cbn [In] in St.
  destruct St as [<- |[<- |[<- |[<- |[<- |[]]]]]]; unfold dswitch in H; cbn [top state below saved] in H.
  - destruct (isspace c); [injection H as <-; cbn; tauto|].
    destruct (c =? 47); [injection H as <-; cbn; tauto|].
    rewrite dredo_S in H. cbn in H. discriminate H.
  - destruct (c =? 42); [injection H as <-; cbn; tauto|].
    destruct (c =? 47); [injection H as <-; cbn; tauto|discriminate H].
  - destruct (c =? 42); injection H as <-; cbn; tauto.
  - destruct (c =? 10); injection H as <-; cbn; tauto.
  - destruct (c =? 47); injection H as <-; cbn; tauto.
Qed.

Lemma after_steps : forall e o s t t', after o t -> dsteps e t s = Some t' -> after o t'.
Proof.
  intros e o. induction s as [|c s IH]; intros t t' A H; cbn [dsteps] in H.
  - injection H as <-. exact A.
  - destruct (delta e t c) as [x|x y|x| |] eqn:D; try discriminate.
    destruct (c =? 0); [discriminate|]. apply (IH x t'); [apply (after_step e o t c x A D)|exact H].
Qed.

(** a prefix of what was read *)
Lemma prefix_result : forall e x y t t' o, dsteps e t (x ++ y) = Some t' -> below t' = [] -> top t' = done o ->
  err t = E_success -> Inv t -> resting t ->
  match drun e true t x with
  | Ret t1 (Some o1) rest => o1 = o /\ rest = [] /\ err t1 = E_success
  | Ret t1 None rest => err t1 = E_continue
  | Wrong => False
  end.
Proof.
  intros e x y t t' o D B T Er I R.
  rewrite dsteps_app in D. destruct (dsteps e t x) as [d|] eqn:Dx; [|discriminate].
  pose proof (drun_steps e true x [] _ _ Dx) as Q. rewrite app_nil_r in Q. rewrite Q.
  cbn [drun]. unfold pop_fail, finish_parse. cbn [N.eqb].
  destruct (below d) eqn:Bd; [|cbn [err set_err]; reflexivity].
  destruct (state (top d)) eqn:Sd; cbn [err set_err]; try reflexivity.
  destruct (saved (top d)) eqn:Vd; cbn [err set_err]; try reflexivity.
  split; [|split; reflexivity]. cbn [top set_err].
  assert (A : after (current (top d)) d).
  { split; [exact Bd|]. split; [exact Vd|]. split; [reflexivity|]. rewrite Sd. left. reflexivity. }
  destruct (after_steps e _ _ _ _ A D) as (_ & _ & C & _). rewrite T in C. cbn [current done] in C. symmetry. exact C.
Qed.

Lemma skip_prefix : forall w c r x y, ws w -> isspace c = false -> w ++ c :: r = x ++ y ->
  skip x = [] \/ exists r1, skip x = c :: r1 /\ r = r1 ++ y.
Proof.
  induction w as [|b w IH]; intros c r x y W Sc H.
  - destruct x as [|x0 x]; [left; reflexivity|]. cbn [app] in H. injection H as <- ->.
    right. exists x. split; [unfold skip; rewrite Sc; reflexivity|reflexivity].
  - destruct x as [|x0 x]; [left; reflexivity|]. cbn [app] in H. injection H as <- H.
    unfold skip. destruct (blank_space b (Forall_inv W)) as [-> _].
    exact (IH c r x y (Forall_inv_tail W) Sc H).
Qed.

(** the object a document is read as *)
Lemma document_prefix : forall e n s v, env_ok e -> document e none n s v -> (n <= 31)%nat ->
  exists o, meaning o = v /\ (forall x y, s = x ++ y ->
    (skip x = [] /\ exists t, parse_len e x = Ret t None [] /\ err t = E_eof) \/
    (skip x <> [] /\
     match parse_len e x with
     | Ret t1 (Some o1) rest => o1 = o /\ rest = [] /\ err t1 = E_success
     | Ret t1 None rest => err t1 = E_continue
     | Wrong => False
     end)).
Proof.
  intros e n s v E D L.
  destruct (document_steps e E n s v D L) as (c & r & t' & o & A1 & A2 & _ & A4 & A5 & A6 & A7 & A8).
  exists o. split; [exact A8|]. intros x y Exy.
  assert (Sc : isspace c = false) by (unfold isspace; lia).
  assert (Sk : skip x = [] \/ exists r1, skip x = c :: r1 /\ r = r1 ++ y).
  { destruct D as (w1 & b & w2 & Es & W1 & Hb & W2 & C).
    destruct (container_starts e n b v Hb C) as (c0 & r0 & -> & Hc & Sc0).
    assert (c0 = c /\ r0 ++ w2 = r) as [-> Er].
    { rewrite Es in A1. cbn [app] in A1. rewrite skip_ws in A1 by assumption. injection A1 as -> ->. auto. }
    apply (skip_prefix w1 c r x y W1 Sc). rewrite <- Exy, Es, <- Er. reflexivity. }
  unfold parse_len. rewrite parse_ex_dparse by (exact new_inv || (split; discriminate)). unfold dparse.
  change (started (set_err tok_new E_success)) with false. cbn match.
  destruct Sk as [Sk|(r1 & Sk & ->)]; rewrite Sk.
  - left. split; [reflexivity|]. eexists. split; [reflexivity|reflexivity].
  - right. split; [discriminate|]. rewrite A2.
    change (c :: r1 ++ y) with ((c :: r1) ++ y) in A4.
    apply (prefix_result e (c :: r1) y _ t' o A4 A5 A6); [reflexivity|exact new_inv|split; discriminate].
Qed.

(** a document cut short is not taken for another one *)
Lemma truncated : forall e n s v x y, env_ok e -> document e none n s v -> (n <= 31)%nat -> s = x ++ y ->
  match parse_len e x with
  | Ret t1 (Some o1) rest => meaning o1 = v /\ rest = []
  | Ret t1 None rest => err t1 = E_continue \/ err t1 = E_eof
  | Wrong => False
  end.
Proof.
  intros e n s v x y E D L H.
  destruct (document_prefix e n s v E D L) as (o & M & P).
  destruct (P x y H) as [(_ & t & -> & Er)|(_ & Q)]; [right; exact Er|].
  destruct (parse_len e x) as [t1 [o1|] rest|]; [|left; exact Q|exact Q].
  destruct Q as (-> & Rest & _). auto.
Qed.

Lemma skip_blank : forall x, Forall (fun c => isspace c = true) x <-> skip x = [].
Proof.
  induction x as [|c x IH]; split; intros H; try constructor; try reflexivity.
  - unfold skip. rewrite (Forall_inv H). apply IH. exact (Forall_inv_tail H).
  - unfold skip in H. destruct (isspace c); [reflexivity|discriminate].
  - unfold skip in H. destruct (isspace c); [apply IH; exact H|discriminate].
Qed.

Lemma skip_app_nonempty : forall a b, skip a <> [] -> skip (a ++ b) <> [].
Proof. intros a b H. rewrite skip_app by exact H. destruct (skip a); [congruence|discriminate]. Qed.

(** a document fed in pieces *)
Lemma pieces : forall e n p ps v, env_ok e -> document e none n (concat (p :: ps)) v -> (n <= 31)%nat ->
  Exists (fun c => isspace c = false) p -> gives (feed e tok_new (p :: ps)) [] v.
Proof.
  intros e n p ps v E D L X.
  destruct (feed_prefix e (p :: ps) tok_new new_inv) as (qs & rs & Eq & Nq & Ef & As);
    [split; discriminate|discriminate|].
  destruct (document_prefix e n _ v E D L) as (o & M & P).
  assert (Sp : skip p <> []).
  { intros Z. apply skip_blank in Z. apply Exists_exists in X. destruct X as (c & X1 & X2).
    rewrite Forall_forall in Z. rewrite (Z c X1) in X2. discriminate. }
  destruct qs as [|q qs]; [congruence|]. cbn [app] in Eq. injection Eq as <- Eq.
  destruct (P (concat (p :: qs)) (concat rs)) as [(Z & _)|(_ & Q)].
  - rewrite <- concat_app. cbn [app]. rewrite Eq. reflexivity.
  - elim (skip_app_nonempty p (concat qs) Sp). exact Z.
  - assert (Q' : match feed e tok_new (p :: ps) with
                 | Ret t1 (Some o1) rest => o1 = o /\ rest = [] /\ err t1 = E_success
                 | Ret t1 None rest => err t1 = E_continue
                 | Wrong => False
                 end) by (rewrite Ef; exact Q).
    clear Q. rename Q' into Q.
    destruct rs as [|r0 rs].
    + rewrite app_nil_r in Eq. subst qs.
      pose proof (document_len e E n _ v D L) as G. unfold parse_len in G. rewrite Ef. exact G.
    + destruct As as [As|As]; [discriminate|].
      destruct (feed e tok_new (p :: ps)) as [t1 [o1|] rest|]; [|elim As; exact Q|elim Q].
      destruct Q as (-> & -> & Er). exists t1, o. auto.
Qed.

(** * Strings that end too early *)

Definition root_ok (f : frame) : Prop :=
  match state f with
  | S_start | S_null | S_boolean | S_number | S_string => False
  | S_eatws | S_comment_start | S_comment | S_comment_eol | S_comment_end => saved f <> S_start
  | S_string_escape | S_escape_unicode => saved f = S_object_field
  | _ => True
  end.
Definition saved_ok (f : frame) : Prop :=
  match state f with
  | S_eatws | S_comment_start | S_comment | S_comment_eol | S_comment_end | S_finish => True
  | _ => saved f <> S_finish
  end.
Definition rooted (t : tok) : Prop :=
  root_ok (last (below t) (top t)) /\ saved_ok (top t) /\ Forall saved_ok (below t).
Definition quote_ok (t : tok) : Prop :=
  match state (top t) with
  | S_string | S_object_field | S_string_escape | S_escape_unicode => quote_char t <> 0
  | _ => True
  end.

Lemma last_cons2 : forall (f g : frame) fs, last (f :: fs) g = last fs f.
Proof.
  intros f g fs. revert f g. induction fs as [|h fs IH]; intros f g; [reflexivity|].
  change (last (f :: h :: fs) g) with (last (h :: fs) g). rewrite (IH h g), (IH h f). reflexivity.
Qed.

Ltac rooted_tac :=
  unfold rooted, saved_ok, ret_done, fresh,
    set_top, set_state, set_saved, set_current, set_field, set_pb, set_double, set_pos,
    set_ucs, set_quote, set_err, set_started, append in *;
  cbn [top below pb is_double st_pos ucs_char quote_char err started state saved current field_name] in *.

Ltac rooted_goal :=
  unfold rooted, saved_ok, ret_done, fresh,
    set_top, set_state, set_saved, set_current, set_field, set_pb, set_double, set_pos,
    set_ucs, set_quote, set_err, set_started, append;
  cbn [top below pb is_double st_pos ucs_char quote_char err started state saved current field_name].

Ltac steps_goal :=
  unfold ret_done, fresh,
    set_top, set_state, set_saved, set_current, set_field, set_pb, set_double, set_pos,
    set_ucs, set_quote, set_err, set_started, append;
  cbn [top below pb is_double st_pos ucs_char quote_char err started state saved current field_name].

Definition keeps (P : tok -> Prop) (d : dres) : Prop :=
  match d with DN t' | DR t' _ => P t' | _ => True end.

Lemma dswitch_rooted : forall e t obj c, Inv t -> rooted t ->
  keeps rooted (dswitch e t obj c).
Proof.
  intros e t obj c (F & W & _) (A & B & C).
  destruct t as [f fs p db sp uc q er sta]. destruct f as [s sv cu fn].
  unfold frame_ok, resume in F. rooted_tac.
  unfold dswitch. cbn [top state].
  assert (K : forall s' sv' cu' fn', (fs = [] -> root_ok (mkf s' sv' cu' fn')) ->
     root_ok (last fs (mkf s' sv' cu' fn'))).
  { intros s' sv' cu' fn' H. destruct fs as [|g fs]; [apply H; reflexivity|]. rewrite last_cons2 in *. exact A. }
  assert (A0 : fs = [] -> root_ok (mkf s sv cu fn)) by (intros ->; exact A).
  destruct s; cbn [top state below saved current field_name] in *.
  3: { destruct fs as [|g fs]; [exact Logic.I|]. cbn [top below]. rewrite last_cons2 in A.
       split; [exact A|]. split; [exact (Forall_inv C)|exact (Forall_inv_tail C)]. }
  all: repeat match goal with
       | |- context [if ?x then _ else _] => destruct x; steps_goal
       | |- context [match number_object ?a ?b ?d with _ => _ end] => destruct (number_object a b d); steps_goal
       | v : jv |- context [match ?w with _ => _ end] => constr_eq v w; destruct v; steps_goal
       | v : option bytes |- context [match ?w with _ => _ end] => constr_eq v w; destruct v; steps_goal
       end; try exact Logic.I.
  all: try (split; [apply K; intros Z; specialize (A0 Z); unfold root_ok in *; cbn [state saved] in *; try discriminate; try congruence; tauto
                   |split; [try discriminate; try congruence; try exact Logic.I|exact C]]).
  all: try (destruct F as [[-> |[-> |[-> |[-> |[-> |[-> |[-> | ->]]]]]]] F];
    (split; [apply K; intros Z; specialize (A0 Z); unfold root_ok in *; cbn [state saved] in *; try congruence; tauto
            |split; [try discriminate; try exact Logic.I|exact C]])).
  all: try (destruct F as [[-> | ->] F]; (split; [apply K; intros Z; specialize (A0 Z); unfold root_ok in *; cbn [state saved] in *; try congruence; tauto
            |split; [try discriminate; try exact Logic.I|exact C]])).
  all: try exact B.
  all: cbn [keeps set_top top below]; rewrite last_cons2.
  all: split; [apply K; intros Z; specialize (A0 Z); unfold root_ok in *; cbn [state saved] in *; exact Logic.I
              |split; [exact Logic.I|constructor; [exact B|exact C]]].
Qed.

Lemma dswitch_quote : forall e t obj c, Inv t -> quote_ok t ->
  keeps quote_ok (dswitch e t obj c).
Proof.
  intros e t obj c (F & W & _) B.
  destruct t as [f fs p db sp uc q er sta]. destruct f as [s sv cu fn].
  unfold frame_ok, resume, quote_ok in *. rooted_tac.
  unfold dswitch. cbn [top state].
  destruct s; cbn [top state below saved current field_name] in *.
  3: { destruct fs as [|g fs]; [exact Logic.I|]. cbn [keeps top]. pose proof (Forall_inv W) as Wg.
       destruct Wg as [[-> _] |[-> _]]; exact Logic.I. }
  all: repeat match goal with
       | |- context [if ?x then _ else _] => destruct x eqn:?; steps_goal
       | |- context [match number_object ?a ?b ?d with _ => _ end] => destruct (number_object a b d); steps_goal
       | v : jv |- context [match ?w with _ => _ end] => constr_eq v w; destruct v; steps_goal
       | v : option bytes |- context [match ?w with _ => _ end] => constr_eq v w; destruct v; steps_goal
       end; unfold keeps; rooted_goal; try exact Logic.I; try exact B; try lia.
  all: try (destruct F as [[-> |[-> |[-> |[-> |[-> |[-> |[-> | ->]]]]]]] F]; exact Logic.I).
  all: destruct F as [[-> | ->] F]; exact B.
Qed.

Definition nul_goal (t : tok) (d : dres) : Prop :=
  match d with
    | DN t' => state (top t') <> S_finish /\ saved (top t') <> S_finish
    | DS t' => (state (top t') = S_finish \/ saved (top t') = S_finish) -> err t' = E_success ->
        below t = [] /\ state (top t) = S_finish /\ t' = t
    | DR t2 o => ~ In (state (top t2)) [S_comment_start; S_comment; S_comment_eol; S_comment_end] /\
        (below t2 = [] -> (state (top t2) = S_finish \/ (state (top t2) = S_eatws /\ saved (top t2) = S_finish)) ->
         below t = [] /\ state (top t) = S_eatws /\ saved (top t) = S_finish /\ t2 = set_state t S_finish)
    | _ => True
    end.

(** at the NUL of a string: only a complete document is not an error *)
Lemma nul_stop : forall n e t obj, Inv t -> rooted t -> quote_ok t ->
  ~ In (state (top t)) [S_comment_start; S_comment; S_comment_eol; S_comment_end] ->
  err t = E_success -> 
  match dredo n e t obj 0 with
  | DN t' | DS t' =>
      (state (top t') = S_finish \/ saved (top t') = S_finish) -> err t' = E_success ->
      below t = [] /\ (state (top t) = S_finish \/ (state (top t) = S_eatws /\ saved (top t) = S_finish))
      /\ t' = set_state t S_finish
  | _ => True
  end.
Proof.
  induction n as [|n IH]; intros e t obj I R Qk N Er; [exact Logic.I|].
  rewrite dredo_S.
  pose proof (dswitch_inv e t obj 0 I) as DI. pose proof (dswitch_rooted e t obj 0 I R) as DR'.
  pose proof (dswitch_err e t obj 0) as DE. pose proof (dswitch_quote e t obj 0 I Qk) as DQ.
  assert (Main : nul_goal t (dswitch e t obj 0)).
  { clear IH DI DR' DE DQ. unfold quote_ok in Qk.
    destruct I as (F & W & _). destruct R as (A & B & C).
    destruct t as [f fs p db sp uc q er sta]. destruct f as [s sv cu fn].
    unfold frame_ok, resume in F. rooted_tac. subst er.
    unfold dswitch. cbn [top state].
    assert (A0 : fs = [] -> root_ok (mkf s sv cu fn)) by (intros ->; exact A). clear A.
    destruct s; cbn [top state below saved current field_name] in *; try (elim N; cbn; tauto);
      cbn [isspace N.eqb N.leb N.compare Pos.compare Pos.compare_cont andb orb negb].
    { (* eatws *) unfold nul_goal. rooted_tac.
      destruct F as [[-> |[-> |[-> |[-> |[-> |[-> |[-> | ->]]]]]]] F]; cbn [In]; (split; [intuition discriminate|]);
        intros Z [Y|[Y Y2]]; try discriminate; auto. }
    { (* start *) unfold nul_goal. rooted_tac. intros _ X; discriminate X. }
    { unfold nul_goal. destruct fs as [|g fs]; [rooted_tac; auto|].
      rooted_tac. pose proof (Forall_inv W) as Wg. destruct g as [gs gv gc gf].
      unfold waiting in Wg. cbn [state] in *.
      destruct Wg as [[-> _] |[-> _]]; cbn [In]; (split; [intuition discriminate|]);
        intros Z [Y|[Y _]]; discriminate Y. }
    all: repeat match goal with
       | |- context [if ?x then _ else _] => destruct x eqn:?; steps_goal
       | |- context [match number_object ?a ?b ?d with _ => _ end] => destruct (number_object a b d); steps_goal
       | v : jv |- context [match ?w with _ => _ end] => constr_eq v w; destruct v; steps_goal
       | v : option bytes |- context [match ?w with _ => _ end] => constr_eq v w; destruct v; steps_goal
       end; unfold nul_goal; rooted_goal; try exact Logic.I.
    all: try (destruct q; [elim Qk; reflexivity|discriminate]).
    all: try (intros _ X; discriminate X).
    all: try (split; [intros [X|[X|[X|[X|[]]]]]; discriminate X|]; intros Z; specialize (A0 Z); contradiction A0).
    all: try (split; [intros [X|[X|[X|[X|[]]]]]; discriminate X|]; intros Z [Y|[_ Y]]; discriminate Y).
    all: try (split; [intros [X|[X|[X|[X|[]]]]]; discriminate X|]; intros Z; discriminate Z).
    all: try (split; [discriminate|exact B]).
    all: try (split; [discriminate|discriminate]).
    all: destruct F as [[-> | ->] F]; split; discriminate. }
  destruct (dswitch e t obj 0) as [t'|t2 o|t'| |]; try exact Logic.I.
  - intros [X|X] _; destruct Main; contradiction.
  - destruct Main as [M1 M2]. destruct DI as [I2 _].
    specialize (IH e t2 o I2 DR' DQ M1 (eq_trans DE Er)).
    destruct (dredo n e t2 o 0) as [t'|t3 o3|t'| |]; try exact Logic.I;
      (intros X Y; destruct (IH X Y) as (Z1 & Z2 & Z3); destruct (M2 Z1 Z2) as (Q1 & Q2 & Q3 & ->);
       split; [exact Q1|]; split; [right; auto|]; rewrite Z3; reflexivity).
  - intros X Y. destruct (Main X Y) as (Q1 & Q2 & ->). split; [exact Q1|]. split; [left; exact Q2|].
    clear - Q2. destruct t as [f fs p db sp uc q er sta]. destruct f as [s sv cu fn]. cbn in Q2. subst s. reflexivity.
Qed.

Lemma dswitch_not_finish : forall e t obj c, Inv t ->
  match dswitch e t obj c with DN t' => state (top t') <> S_finish | _ => True end.
Proof.
  intros e t obj c (F & W & _).
  destruct t as [f fs p db sp uc q er sta]. destruct f as [s sv cu fn].
  unfold frame_ok, resume in *. rooted_tac.
  unfold dswitch. cbn [top state].
  destruct s; cbn [top state below saved current field_name] in *.
  3: { destruct fs as [|g fs]; exact Logic.I. }
  all: repeat match goal with
       | |- context [if ?x then _ else _] => destruct x eqn:?; steps_goal
       | |- context [match number_object ?a ?b ?d with _ => _ end] => destruct (number_object a b d); steps_goal
       | v : jv |- context [match ?w with _ => _ end] => constr_eq v w; destruct v; steps_goal
       | v : option bytes |- context [match ?w with _ => _ end] => constr_eq v w; destruct v; steps_goal
       end; rooted_goal; try exact Logic.I; try discriminate.
  all: destruct F as [[-> | ->] F]; discriminate.
Qed.

Lemma dredo_keeps : forall n e t obj c t', Inv t -> rooted t -> quote_ok t -> dredo n e t obj c = DN t' ->
  rooted t' /\ quote_ok t' /\ state (top t') <> S_finish.
Proof.
  induction n as [|n IH]; intros e t obj c t' I R Q H; [discriminate|].
  rewrite dredo_S in H.
  pose proof (dswitch_inv e t obj c I) as DI. pose proof (dswitch_rooted e t obj c I R) as D1.
  pose proof (dswitch_quote e t obj c I Q) as D2. pose proof (dswitch_not_finish e t obj c I) as D3.
  destruct (dswitch e t obj c) as [x|x o|x| |]; try discriminate.
  - injection H as <-. auto.
  - apply (IH e x o c t'); tauto.
Qed.

Definition in_comment (t : tok) : Prop :=
  In (state (top t)) [S_comment_start; S_comment; S_comment_eol; S_comment_end].

Lemma in_comment_dec : forall t, in_comment t \/ ~ in_comment t.
Proof. intros t. unfold in_comment. destruct (state (top t)); cbn; intuition discriminate. Qed.

Definition complete (t : tok) : Prop :=
  below t = [] /\ state (top t) = S_eatws /\ saved (top t) = S_finish.
Lemma complete_dec : forall t, complete t \/ ~ complete t.
Proof.
  intros t. unfold complete. destruct (below t); [|right; intros [H _]; discriminate].
  destruct (state (top t)); try (right; intros (_ & H & _); discriminate).
  destruct (saved (top t)); try (right; intros (_ & _ & H); discriminate).
  left. auto.
Qed.
Lemma pop_continue : forall t, ~ complete t ->
  match below t, state (top t), saved (top t) with [], S_eatws, S_finish => E_success | _, _, _ => E_continue end
  = E_continue.
Proof.
  intros t N. unfold complete in N. destruct (below t); [|reflexivity].
  destruct (state (top t)); try reflexivity. destruct (saved (top t)); try reflexivity.
  elim N. auto.
Qed.
Lemma finish_none : forall t r, ~ ((state (top t) = S_finish \/ saved (top t) = S_finish) /\ err t = E_success) ->
  exists t2, finish_parse (Out t 0 r) = Ret t2 None r.
Proof.
  intros t r N. unfold finish_parse. cbn [N.eqb].
  assert (C : (state (top t) = S_finish \/ saved (top t) = S_finish) \/
    match state (top t), saved (top t) with S_finish, _ => t | _, S_finish => t | _, _ => set_err t E_eof end = set_err t E_eof).
  { destruct (state (top t)); try (left; left; reflexivity);
      destruct (saved (top t)); try (left; right; reflexivity); right; reflexivity. }
  destruct C as [C|C].
  - assert (Er : err t <> E_success) by (intros Z; apply N; auto). clear N.
    assert (X : match state (top t), saved (top t) with S_finish, _ => t | _, S_finish => t | _, _ => set_err t E_eof end = t).
    { destruct C as [C|C]; rewrite C; [reflexivity|]. destruct (state (top t)); reflexivity. }
    rewrite X. exists t. destruct (err t); congruence.
  - rewrite C. eexists. reflexivity.
Qed.

Lemma nul_run : forall x e t, Inv t -> resting t -> rooted t -> quote_ok t -> err t = E_success ->
  state (top t) <> S_finish -> ~ In 0 x ->
  match drun e true t x with
  | Ret t1 (Some o) r1 => exists t2, drun e false t (x ++ [0]) = Ret t2 (Some o) (r1 ++ [0]) /\ err t2 = E_success
  | Ret t1 None r1 => (err t1 = E_continue /\ in_comment t1) \/
      exists t2 r2, drun e false t (x ++ [0]) = Ret t2 None r2
  | Wrong => False
  end.
Proof.
  induction x as [|c x IH]; intros e t I Rs R Q Er Nf N0.
  - cbn [app drun]. unfold pop_fail, finish_parse at 1. cbn [N.eqb].
    destruct (in_comment_dec t) as [Cm|Cm].
    { assert (Nc : ~ complete t).
      { intros (_ & X & _). unfold in_comment in Cm. rewrite X in Cm. cbn [In] in Cm.
        decompose [or] Cm; try discriminate; contradiction. }
      rewrite (pop_continue t Nc). cbn [err set_err]. left. split; [reflexivity|exact Cm]. }
    pose proof (nul_stop 12 e t JNull I R Q Cm Er) as NS.
    pose proof (delta_ok e t 0 I) as DO. unfold delta in *.
    assert (Succ : below t = [] -> state (top t) = S_eatws -> saved (top t) = S_finish ->
       dredo 12 e t JNull 0 = DS (set_state t S_finish)).
    { intros B S1 S2. rewrite dredo_S. unfold dswitch at 1. rewrite S1. cbn [isspace N.eqb N.leb N.compare andb orb].
      rewrite S2. rewrite dredo_S. unfold dswitch. cbn [set_state set_top top state below]. rewrite B. reflexivity. }
    destruct (complete_dec t) as [(B & S1 & S2)|Nc].
    + rewrite B, S1, S2. cbn [err set_err]. rewrite (Succ B S1 S2). unfold finish_parse.
      cbn [N.eqb set_state set_top top state err current].
      rewrite Er. eexists. split; [reflexivity|exact Er].
    + rewrite (pop_continue t Nc). cbn [err set_err]. right.
      destruct (dredo 12 e t JNull 0) as [t'|t' o|t'| |]; try contradiction; cbn [N.eqb].
      all: assert (Z : ~ ((state (top t') = S_finish \/ saved (top t') = S_finish) /\ err t' = E_success)) by
        (intros [Z1 Z2]; destruct (NS Z1 Z2) as (Y1 & [Y2|[Y2 Y3]] & _); [congruence|apply Nc; split; [exact Y1|split; [exact Y2|exact Y3]]]).
      all: match goal with |- context [finish_parse (Out ?u 0 ?r)] => destruct (finish_none u r Z) as (t2 & X); eexists _, _; exact X end.
  - cbn [app drun].
    assert (C0 : c =? 0 = false) by (apply N.eqb_neq; intros ->; apply N0; left; reflexivity).
    pose proof (delta_ok e t c I) as DO. unfold delta in *.
    destruct (dredo 12 e t JNull c) as [t'|t' o|t'| |] eqn:D; try contradiction.
    + rewrite C0. destruct DO as [I' R'].
      destruct (dredo_keeps 12 e t JNull c t' I R Q D) as (K1 & K2 & K3).
      apply IH; auto.
      * rewrite (dredo_err _ _ _ _ _ _ D). exact Er.
      * intros Z. apply N0. right. exact Z.
    + unfold finish_parse. rewrite C0.
      destruct (err t') eqn:X3; try (right; eexists _, _; reflexivity).
      exists t'. auto.
Qed.

Lemma skip_app0 : forall x, skip (x ++ [0]) = skip x ++ [0].
Proof.
  induction x as [|c x IH]; [reflexivity|]. cbn [app]. unfold skip. destruct (isspace c); [exact IH|reflexivity].
Qed.

Lemma nul_agree : forall e x, ~ In 0 x ->
  match parse_len e x with
  | Ret t1 (Some o) r1 => exists t2, parse e x = Ret t2 (Some o) (r1 ++ [0]) /\ err t2 = E_success
  | Ret t1 None r1 => (err t1 = E_continue /\ in_comment t1) \/ exists t2 r2, parse e x = Ret t2 None r2
  | Wrong => False
  end.
Proof.
  intros e x N0. unfold parse, parse_len.
  rewrite !parse_ex_dparse by (exact new_inv || (split; discriminate)). unfold dparse.
  change (started (set_err tok_new E_success)) with false. cbn match. rewrite skip_app0.
  assert (Ns : ~ In 0 (skip x)).
  { intros H. apply N0. clear - H. induction x as [|c x IH]; [exact H|].
    unfold skip in H. destruct (isspace c); [right; apply IH; exact H|exact H]. }
  destruct (skip x) as [|c r]; cbn [app].
  - right. eexists _, _. reflexivity.
  - set (t := set_started (set_err tok_new E_success)).
    assert (I : Inv t) by exact new_inv.
    destruct ((c =? 123) || (c =? 91)) eqn:Hc.
    + assert (C0 : c =? 0 = false) by (apply N.eqb_neq; intros ->; apply Ns; left; reflexivity).
      assert (Nr : ~ In 0 r) by (intros Z; apply Ns; right; exact Z).
      assert (C : c = 123 \/ c = 91) by lia.
      destruct C as [-> | ->].
      * pose proof (open_obj e t I eq_refl) as D.
        change (123 :: r ++ [0]) with ([123] ++ (r ++ [0])). change (123 :: r) with ([123] ++ r).
        rewrite !(drun_steps e _ [123] _ _ _ D).
        apply nul_run.
        -- apply obj_inv. exact I.
        -- split; discriminate.
        -- split; [discriminate|]. split; [exact Logic.I|constructor].
        -- exact Logic.I.
        -- reflexivity.
        -- discriminate.
        -- exact Nr.
      * pose proof (open_arr e t I eq_refl) as D.
        change (91 :: r ++ [0]) with ([91] ++ (r ++ [0])). change (91 :: r) with ([91] ++ r).
        rewrite !(drun_steps e _ [91] _ _ _ D).
        apply nul_run.
        -- apply arr_inv. exact I.
        -- split; discriminate.
        -- split; [discriminate|]. split; [exact Logic.I|constructor].
        -- exact Logic.I.
        -- reflexivity.
        -- discriminate.
        -- exact Nr.
    + assert (C0 : c =? 0 = false) by (apply N.eqb_neq; intros ->; apply Ns; left; reflexivity).
      unfold finish_parse. rewrite C0. cbn [err set_err]. right. eexists _, _. reflexivity.
Qed.
