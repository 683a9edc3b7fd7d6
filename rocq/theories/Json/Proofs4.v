(** Every document of the grammar is read as its value: numbers, literals,
    arrays and objects. *)
From Coq Require Import NArith ZArith List Bool Lia ZifyBool ZifyNat ZifyN.
From Verif Require Import Json.Model Json.Spec Json.Proofs Json.Proofs2 Json.Proofs3.
Import ListNotations.
Local Open Scope N_scope.

Definition done (o : jv) : frame := mkf S_eatws S_finish o None.

(** the text of the value o has been read: any character that ends a number
    finds o complete *)
Definition closes (e : env) (t : tok) (o : jv) : Prop :=
  forall c obj, c <> 0 -> number_char c = false ->
  exists d, top d = done o /\ below d = below t /\ Inv d /\ dredo 12 e t obj c = dredo 12 e d obj c.

Lemma done_inv : forall t o, Inv t -> Inv (set_top t (done o)).
Proof.
  intros t o (_ & W & D). split; [|split; [exact W|exact D]].
  unfold frame_ok. cbn. unfold resume. tauto.
Qed.

Lemma closes_done : forall e t o, Inv t -> top t = done o -> closes e t o.
Proof. intros e t o I H c obj _ _. exists t. auto. Qed.

(** * Numbers *)

Lemma num_run : forall e s t, state (top t) = S_number ->
  Forall (fun c => number_char c = true) s ->
  exists t', dsteps e t s = Some t' /\ top t' = top t /\ below t' = below t /\ pb t' = pb t ++ s
    /\ err t' = err t /\ started t' = started t
    /\ is_double t' = is_double t || existsb (fun c => (c =? 46) || (c =? 101)) s.
Proof.
  intros e. induction s as [|c s IH]; intros t St F.
  - exists t. cbn. rewrite app_nil_r, orb_false_r. repeat split.
  - pose proof (Forall_inv F) as Fc. cbn in Fc.
    assert (N0 : c <> 0) by (intros ->; discriminate Fc).
    assert (N0' := N0). apply N.eqb_neq in N0'.
    set (t1 := append (set_double t (is_double t || ((c =? 46) || (c =? 101)))) [c]).
    assert (D1 : dswitch e t JNull c = DN t1).
    { unfold dswitch. rewrite St, N0', Fc. reflexivity. }
    rewrite (dsteps_one e t c t1 s (delta_dn _ _ _ _ _ D1) N0).
    destruct (IH t1) as (t2 & D & A1 & A2 & A3 & A4 & A5 & A6); [exact St|exact (Forall_inv_tail F)|].
    exists t2. split; [exact D|]. rewrite A1, A2, A3, A4, A5, A6.
    unfold t1. cbn [top below pb err started is_double append set_pb set_double existsb].
    rewrite <- app_assoc, <- orb_assoc. repeat split.
Qed.

Definition num_start (c : N) : Prop := 48 <= c <= 57 \/ c = 45.

Lemma num_first : forall e t c, Inv t -> top t = fresh -> num_start c ->
  exists t', delta e t c = DN t' /\ top t' = mkf S_number S_start JNull None /\ below t' = below t
    /\ pb t' = [c] /\ is_double t' = false /\ err t' = err t /\ started t' = started t.
Proof.
  intros e t c I T Hc. unfold delta.
  destruct t as [f fs p db sp uc q er sta]. cbn in T. subst f.
  assert (Sp : isspace c = false) by (unfold isspace, num_start in *; lia).
  assert (C47 : (c =? 47) = false) by (unfold num_start in *; lia).
  erewrite delta_dr; [|exact I|unfold dswitch; cbn [top state fresh]; rewrite Sp, C47; reflexivity].
  erewrite delta_dr.
  2:{ split; [|split; [apply I|apply I]]. exact Logic.I. }
  2:{ unfold dswitch. cbn [top state set_state set_top fresh saved].
      replace (c =? 123) with false by (unfold num_start in *; lia).
      replace (c =? 91) with false by (unfold num_start in *; lia).
      replace ((c =? 78) || (c =? 110)) with false by (unfold num_start in *; lia).
      replace ((c =? 34) || (c =? 39)) with false by (unfold num_start in *; lia).
      replace ((c =? 84) || (c =? 116) || (c =? 70) || (c =? 102)) with false by (unfold num_start in *; lia).
      replace ((48 <=? c) && (c <=? 57) || (c =? 45)) with true by (unfold num_start in *; lia).
      reflexivity. }
  eexists. split.
  - apply delta_dn. unfold dswitch. cbn [top state set_state set_top fresh saved set_pb set_double].
    replace ((c =? 0) || negb (number_char c)) with false by (unfold num_start, number_char in *; lia).
    reflexivity.
  - cbn. replace ((c =? 46) || (c =? 101)) with false by (unfold num_start in *; lia). repeat split.
Qed.

Lemma num_value : forall e s c r o t, Inv t -> top t = fresh ->
  s = c :: r -> num_start c -> Forall (fun c => number_char c = true) r ->
  number_object e (existsb (fun c => (c =? 46) || (c =? 101)) r) s = Some o ->
  exists t', dsteps e t s = Some t' /\ below t' = below t /\ closes e t' o.
Proof.
  intros e s c r o t I T -> Hc F Ho.
  destruct (num_first e t c I T Hc) as (t1 & D1 & A1 & A2 & A3 & A4 & A5 & A6).
  assert (N0 : c <> 0) by (unfold num_start in Hc; lia).
  rewrite (dsteps_one e t c t1 r D1 N0).
  destruct (num_run e r t1) as (t2 & D2 & B1 & B2 & B3 & B4 & B5 & B6);
    [rewrite A1; reflexivity|exact F|].
  exists t2. split; [exact D2|]. split; [congruence|].
  assert (D : dsteps e t (c :: r) = Some t2) by (rewrite (dsteps_one e t c t1 r D1 N0); exact D2).
  assert (R : resting t) by (split; rewrite T; discriminate).
  destruct (dsteps_inv e _ t t2 I R D) as (I2 & R2 & _ & _).
  set (d := set_top (append (set_double t2 (is_double t2 || false)) []) (done o)).
  intros x obj X0 Xn.
  exists d. split; [reflexivity|]. split; [reflexivity|].
  split. { apply (done_inv (append (set_double t2 (is_double t2 || false)) []) o). exact I2. }
  apply delta_dr; [exact I2|].
  unfold dswitch. rewrite B1, A1. cbn [state].
  rewrite Xn. rewrite orb_true_r.
  cbn [is_double pb append set_pb set_double]. rewrite orb_false_r, app_nil_r, B6, B3, A3, A4.
  cbn [orb app]. rewrite Ho. unfold ret_done, d, set_state, set_saved, set_current, set_top, append, set_pb, set_double.
  cbn [top below pb is_double st_pos ucs_char quote_char err started state saved current field_name].
  rewrite B1, A1. cbn [field_name]. rewrite B6, A4. cbn [orb]. rewrite orb_false_r. reflexivity.
Qed.

(** * Decimal texts *)

Definition digitb (c : N) : bool := (48 <=? c) && (c <=? 57).

Lemma natural_digits : forall s n, natural s n ->
  exists c r, s = c :: r /\ Forall (fun c => digitb c = true) s /\ digits_val 0 s = Z.of_N n.
Proof.
  intros s n H. induction H as [d L|s n d H IH N L].
  - exists (48 + d), []. split; [reflexivity|]. split.
    + constructor; [unfold digitb; lia|constructor].
    + cbn [digits_val]. lia.
  - destruct IH as (c & r & -> & F & V).
    exists c, (r ++ [48 + d]). split; [reflexivity|]. split.
    + change (c :: r ++ [48 + d]) with ((c :: r) ++ [48 + d]). apply Forall_app. split; [exact F|].
      constructor; [unfold digitb; lia|constructor].
    + assert (G : forall l a x, digits_val a (l ++ [x]) = (digits_val a l * 10 + (Z.of_N x - 48))%Z).
      { induction l as [|y l IHl]; intros a x; cbn [digits_val app]; [reflexivity|apply IHl]. }
      rewrite G, V. lia.
Qed.

Lemma lead_digits_all : forall s r, Forall (fun c => digitb c = true) s ->
  (match r with [] => True | c :: _ => digitb c = false end) -> lead_digits (s ++ r) = s.
Proof.
  intros s r F H. induction F as [|c s Fc F IH].
  - cbn [app]. destruct r as [|c r]; [reflexivity|]. cbn [lead_digits]. unfold digitb in H. rewrite H. reflexivity.
  - cbn [app lead_digits]. unfold digitb in Fc. rewrite Fc, IH. reflexivity.
Qed.

Lemma digitb_number : forall c, digitb c = true -> number_char c = true.
Proof. intros c H. unfold digitb, number_char in *. lia. Qed.

Lemma integer_shape : forall s z, integer s z ->
  exists c r, s = c :: r /\ num_start c /\ Forall (fun c => digitb c = true) r.
Proof.
  intros s z H. destruct H as [s n H|s n H].
  - destruct (natural_digits s n H) as (c & r & -> & F & _).
    exists c, r. split; [reflexivity|]. split.
    + pose proof (Forall_inv F) as Fc. unfold digitb in Fc. unfold num_start. lia.
    + exact (Forall_inv_tail F).
  - destruct (natural_digits s n H) as (c & r & -> & F & _).
    exists 45, (c :: r). split; [reflexivity|]. split; [right; reflexivity|exact F].
Qed.

Lemma lead_int_integer : forall s z, integer s z -> lead_int s = Some z.
Proof.
  intros s z H. destruct H as [s n H|s n H];
    destruct (natural_digits s n H) as (c & r & -> & F & V);
    pose proof (lead_digits_all (c :: r) [] F Logic.I) as L; rewrite app_nil_r in L.
  - pose proof (Forall_inv F) as Fc. unfold digitb in Fc.
    assert (C : c = 48 \/ c = 49 \/ c = 50 \/ c = 51 \/ c = 52 \/ c = 53 \/ c = 54 \/ c = 55 \/ c = 56 \/ c = 57) by lia.
    decompose [or] C; subst c; unfold lead_int; rewrite L, V; f_equal; lia.
  - unfold lead_int; rewrite L, V; f_equal; lia.
Qed.

Lemma starts_minus : forall s z, integer s z ->
  (match s with 45 :: _ => true | _ => false end) = true /\ (z <= 0)%Z \/
  (match s with 45 :: _ => true | _ => false end) = false /\ (0 <= z)%Z.
Proof.
  intros s z H. destruct H as [s n H|s n H].
  - right. split; [|lia].
    destruct (natural_digits s n H) as (c & r & -> & F & _).
    pose proof (Forall_inv F) as Fc. unfold digitb in Fc.
    assert (C : c = 48 \/ c = 49 \/ c = 50 \/ c = 51 \/ c = 52 \/ c = 53 \/ c = 54 \/ c = 55 \/ c = 56 \/ c = 57) by lia.
    decompose [or] C; subst c; reflexivity.
  - left. split; [reflexivity|lia].
Qed.

Lemma int_object : forall e s z, env_ok e -> integer s z -> (- 2 ^ 63 <= z < 2 ^ 64)%Z ->
  exists i o w, number_object e false s = Some (JInt i o w) /\ number_of i o w = z /\
    (- 2 ^ 31 <= i < 2 ^ 31)%Z /\ (0 <= w < 2 ^ 64)%Z /\ w = (z mod 2 ^ 64)%Z /\
    ((- 2 ^ 31 <= z < 2 ^ 31)%Z -> i = z).
Proof.
  intros e s z E H R. unfold number_object. rewrite (lead_int_integer s z H).
  change (2 ^ 31)%Z with 2147483648%Z. change (2 ^ 63)%Z with 9223372036854775808%Z in *.
  change (2 ^ 64)%Z with 18446744073709551616%Z in *.
  specialize (E z). change (2 ^ 31)%Z with 2147483648%Z in E.
  unfold int_min, int_max, i64_min, two64.
  set (numi := if ((-2147483648 <=? z)%Z && (z <=? 2147483647)%Z) then z else scan_d_wide e z).
  assert (Hn : ((-2147483648 <= z <= 2147483647)%Z /\ numi = z) \/
               ((z < -2147483648 \/ 2147483647 < z)%Z /\ numi = scan_d_wide e z)).
  { unfold numi. destruct (_ && _)%bool eqn:B; [left|right]; lia. }
  assert (Hr : (-2147483648 <= numi < 2147483648)%Z) by lia.
  clearbody numi.
  destruct (starts_minus s z H) as [[-> Sg]|[-> Sg]].
  - rewrite Z.max_r by lia.
    assert (Wr : (0 <= z mod 18446744073709551616 < 18446744073709551616)%Z) by (apply Z.mod_pos_bound; lia).
    eexists _, _, _. split; [reflexivity|]. split; [|split; [exact Hr|split; [exact Wr|split; [reflexivity|lia]]]].
    destruct (z =? numi)%Z eqn:Q; cbn [number_of]; [lia|].
    change (2 ^ 63)%Z with 9223372036854775808%Z. change (2 ^ 64)%Z with 18446744073709551616%Z.
    assert (Zn : (z < 0)%Z) by lia.
    assert (M : (z mod 18446744073709551616 = z + 18446744073709551616)%Z).
    { symmetry. apply (Z.mod_unique_pos _ _ (-1)); lia. }
    rewrite M. destruct (z + 18446744073709551616 <? 9223372036854775808)%Z eqn:K; lia.
  - rewrite Z.min_r by lia.
    eexists _, _, _. split; [reflexivity|]. split; [|split; [exact Hr|split; [lia|split; [symmetry; apply Z.mod_small; lia|lia]]]].
    destruct ((numi <? 0)%Z || negb (z =? numi)%Z) eqn:Q; cbn [number_of]; lia.
Qed.

Lemma no_point : forall r, Forall (fun c => digitb c = true) r ->
  existsb (fun c => (c =? 46) || (c =? 101)) r = false.
Proof.
  intros r F. induction F as [|c r Fc F IH]; [reflexivity|]. cbn [existsb]. rewrite IH.
  unfold digitb in Fc. lia.
Qed.

Lemma Forall_digit_number : forall r, Forall (fun c => digitb c = true) r -> Forall (fun c => number_char c = true) r.
Proof. intros r F. eapply Forall_impl; [|exact F]. intros c. apply digitb_number. Qed.

Lemma digits_number : forall s, digits s -> Forall (fun c => number_char c = true) s.
Proof.
  intros s [_ F]. eapply Forall_impl; [|exact F]. cbn. intros c H. apply digitb_number. unfold digitb. lia.
Qed.

Lemma tail_number : forall s, decimal_tail none s ->
  Forall (fun c => number_char c = true) s /\ existsb (fun c => (c =? 46) || (c =? 101)) s = true.
Proof.
  assert (Sg : forall sg, (sg = [] \/ sg = [43] \/ sg = [45]) -> Forall (fun c => number_char c = true) sg).
  { intros sg [-> |[-> | ->]]; repeat constructor. }
  intros s H. destruct H as [s D|E sg s [-> |[_ []]] G D|f E sg s F E1 G D].
  - split; [constructor; [reflexivity|apply digits_number; exact D]|reflexivity].
  - split; [constructor; [reflexivity|apply Forall_app; split; [apply Sg; exact G|apply digits_number; exact D]]|reflexivity].
  - split; [|reflexivity].
    constructor; [reflexivity|]. apply Forall_app. split; [apply digits_number; exact F|].
    constructor; [destruct E1; subst; reflexivity|].
    apply Forall_app; split; [apply Sg; exact G|apply digits_number; exact D].
Qed.

(** * Literals and strings *)

Definition reads (e : env) (t : tok) (s : bytes) (v : value) : Prop :=
  exists t' o, dsteps e t s = Some t' /\ below t' = below t /\ meaning o = v /\ closes e t' o
    /\ (container v -> top t' = done o).

Lemma resting_fresh : forall t, top t = fresh -> resting t.
Proof. intros t T. split; rewrite T; discriminate. Qed.

Ltac dn := erewrite dsteps_one; [|apply delta_dn; reflexivity|discriminate].

Definition lit (st : tstate) (t : tok) (p : bytes) : tok :=
  mkt (mkf st S_start JNull None) (below t) p (is_double t) (length p) (ucs_char t) (quote_char t)
      (err t) (started t).

(** the character that begins a literal *)
Lemma lit_first : forall e t c st, Inv t -> top t = fresh ->
  (c = 110 /\ st = S_null) \/ ((c = 116 \/ c = 102) /\ st = S_boolean) ->
  delta e t c = delta e (lit st t []) c /\ Inv (lit st t []).
Proof.
  intros e t c st I T H. unfold delta.
  assert (J : Inv (lit st t [])).
  { destruct I as (_ & W & D). split; [|split; [exact W|exact D]].
    unfold frame_ok. cbn. destruct H as [[_ ->] |[_ ->]]; exact Logic.I. }
  split; [|exact J].
  destruct I as (I1 & W & D).
  destruct t as [f fs p db sp uc q er sta]. cbn in T. subst f.
  assert (C : isspace c = false /\ (c =? 47) = false) by (unfold isspace; lia).
  destruct C as [C1 C2].
  erewrite delta_dr; [|split; [exact I1|split; [exact W|exact D]]|].
  2:{ unfold dswitch. cbn [top state fresh]. rewrite C1, C2. reflexivity. }
  apply delta_dr.
  - split; [|split; [exact W|exact D]]. exact Logic.I.
  - destruct H as [[-> ->] |[[-> | ->] ->]]; reflexivity.
Qed.

Lemma lit_end : forall e st s o t, Inv t -> (st = S_null \/ st = S_boolean) ->
  (forall c obj, dswitch e (lit st t s) obj c
     = DR (mkt (done o) (below t) (s ++ [c]) (is_double t) (length s) (ucs_char t) (quote_char t)
               (err t) (started t)) obj) ->
  closes e (lit st t s) o.
Proof.
  intros e st s o t (_ & W & D) St H c obj N0 _.
  eexists. split; [|split; [|split; [|apply delta_dr; [|apply H]]]].
  - reflexivity.
  - reflexivity.
  - split; [|split; [exact W|exact D]]. unfold frame_ok. cbn. unfold resume. tauto.
  - split; [|split; [exact W|exact D]]. unfold frame_ok. destruct St as [-> | ->]; exact Logic.I.
Qed.

Ltac lit_step s := rewrite (dsteps_one _ _ _ s); [|apply delta_dn; reflexivity|discriminate].

Lemma null_run : forall e t, Inv t -> top t = fresh -> reads e t [110; 117; 108; 108] Null.
Proof.
  intros e t I T.
  destruct (lit_first e t 110 S_null I T) as [A J]; [left; auto|].
  exists (lit S_null t [110; 117; 108; 108]), JNull.
  split.
  { rewrite (dsteps_same _ _ _ _ _ A).
    lit_step (lit S_null t [110]). lit_step (lit S_null t [110; 117]).
    lit_step (lit S_null t [110; 117; 108]). lit_step (lit S_null t [110; 117; 108; 108]). reflexivity. }
  split; [reflexivity|]. split; [reflexivity|]. split; [|intros []].
  apply lit_end; [exact I|left; reflexivity|]. intros c obj. reflexivity.
Qed.

Lemma true_run : forall e t, Inv t -> top t = fresh -> reads e t [116; 114; 117; 101] (Boolean true).
Proof.
  intros e t I T.
  destruct (lit_first e t 116 S_boolean I T) as [A J]; [right; auto|].
  exists (lit S_boolean t [116; 114; 117; 101]), (JBool true).
  split.
  { rewrite (dsteps_same _ _ _ _ _ A).
    lit_step (lit S_boolean t [116]). lit_step (lit S_boolean t [116; 114]).
    lit_step (lit S_boolean t [116; 114; 117]). lit_step (lit S_boolean t [116; 114; 117; 101]). reflexivity. }
  split; [reflexivity|]. split; [reflexivity|]. split; [|intros []].
  apply lit_end; [exact I|right; reflexivity|]. intros c obj. reflexivity.
Qed.

Lemma false_run : forall e t, Inv t -> top t = fresh -> reads e t [102; 97; 108; 115; 101] (Boolean false).
Proof.
  intros e t I T.
  destruct (lit_first e t 102 S_boolean I T) as [A J]; [right; auto|].
  exists (lit S_boolean t [102; 97; 108; 115; 101]), (JBool false).
  split.
  { rewrite (dsteps_same _ _ _ _ _ A).
    lit_step (lit S_boolean t [102]). lit_step (lit S_boolean t [102; 97]).
    lit_step (lit S_boolean t [102; 97; 108]). lit_step (lit S_boolean t [102; 97; 108; 115]).
    lit_step (lit S_boolean t [102; 97; 108; 115; 101]). reflexivity. }
  split; [reflexivity|]. split; [reflexivity|]. split; [|intros []].
  apply lit_end; [exact I|right; reflexivity|]. intros c obj. reflexivity.
Qed.

Lemma int_run : forall e s z t, env_ok e -> integer s z -> (- 2 ^ 63 <= z < 2 ^ 64)%Z ->
  Inv t -> top t = fresh -> reads e t s (Integer z).
Proof.
  intros e s z t E H R I T.
  destruct (int_object e s z E H R) as (i & o & w & O1 & O2 & _).
  destruct (integer_shape s z H) as (c & r & -> & S1 & S2).
  destruct (num_value e (c :: r) c r (JInt i o w) t I T eq_refl S1) as (t' & A1 & A2 & A3).
  - apply Forall_digit_number. exact S2.
  - rewrite no_point by exact S2. exact O1.
  - exists t', (JInt i o w). split; [exact A1|]. split; [exact A2|]. split; [cbn [meaning]; congruence|].
    split; [exact A3|intros []].
Qed.

Lemma dbl_run : forall e s z dt d t, integer s z -> decimal_tail none dt -> scan_lf e (s ++ dt) = Some d ->
  Inv t -> top t = fresh -> reads e t (s ++ dt) (Double d).
Proof.
  intros e s z dt d t H D Sc I T.
  destruct (integer_shape s z H) as (c & r & -> & S1 & S2).
  destruct (tail_number dt D) as (D1 & D2).
  destruct (num_value e ((c :: r) ++ dt) c (r ++ dt) (JDbl d) t I T eq_refl S1) as (t' & A1 & A2 & A3).
  - apply Forall_app. split; [apply Forall_digit_number; exact S2|exact D1].
  - rewrite existsb_app, D2, orb_true_r. unfold number_object. rewrite Sc. reflexivity.
  - exists t', (JDbl d). split; [exact A1|]. split; [exact A2|]. split; [reflexivity|].
    split; [exact A3|intros []].
Qed.

Lemma str_run : forall e s d t, chars none s d -> Inv t -> top t = fresh ->
  reads e t ([34] ++ s ++ [34]) (Text d).
Proof.
  intros e s d t H I T. destruct t as [f fs p db sp uc q er sta]. cbn in T. subst f.
  set (t0 := mkt fresh fs p db sp uc q er sta) in *.
  set (t1 := mkt (mkf S_string S_start JNull None) fs [] db sp uc 34 er sta).
  assert (D1 : dsteps e t0 [34] = Some t1).
  { erewrite dsteps_one; [reflexivity| |discriminate]. unfold delta.
    erewrite delta_dr; [|exact I|reflexivity]. apply delta_dn. reflexivity. }
  destruct (chars_run e s d H t1) as (t2 & D2 & (N1 & N2 & N3 & N4 & N5 & N6) & F).
  { split; [left; reflexivity|reflexivity]. }
  assert (D3 : dsteps e t2 [34] = Some (ret_done (append t2 []) (JStr (cstr (pb (append t2 [])))))).
  { erewrite dsteps_one; [reflexivity| |discriminate]. apply delta_dn. unfold dswitch.
    rewrite N2, N6. reflexivity. }
  assert (P : pb (append t2 []) = d).
  { unfold append, set_pb. cbn [pb]. rewrite N1, app_nil_r. reflexivity. }
  rewrite P, (cstr_id d F) in D3.
  set (t3 := ret_done (append t2 []) (JStr d)) in *.
  assert (D : dsteps e t0 ([34] ++ s ++ [34]) = Some t3) by (rewrite dsteps_app, D1, dsteps_app, D2; exact D3).
  exists t3, (JStr d). split; [exact D|].
  split; [unfold t3; cbn [ret_done append set_state set_saved set_current set_pb set_top below]; rewrite N5; reflexivity|].
  split; [reflexivity|]. split; [|intros []].
  apply closes_done.
  - destruct (dsteps_inv e _ t0 t3 I (resting_fresh t0 eq_refl) D) as (X & _). exact X.
  - unfold t3, ret_done, set_state, set_saved, set_current, set_top, append, set_pb.
    cbn [top state saved current field_name]. rewrite N4. reflexivity.
Qed.

(** * Containers *)

Definition starter (c : N) : Prop :=
  c <> 0 /\ isspace c = false /\ c <> 47 /\ c <> 93 /\ c <> 125.

Lemma num_starter : forall c, num_start c -> starter c.
Proof. intros c H. unfold num_start, starter, isspace in *. lia. Qed.

Lemma json_starts : forall e n s v, json e none n s v -> exists c r, s = c :: r /\ starter c.
Proof.
  intros e n s v H. destruct H as [n|n|n|n s z H _|n s z dt d H D Sc|n s d H|n w H|n s l H|n w H|n s l H];
    try (eexists _, _; split; [reflexivity|unfold starter, isspace; lia]).
  - destruct (integer_shape s z H) as (c & r & -> & S1 & _). exists c, r.
    split; [reflexivity|apply num_starter; exact S1].
  - destruct (integer_shape s z H) as (c & r & -> & S1 & _). exists c, (r ++ dt).
    split; [reflexivity|apply num_starter; exact S1].
Qed.

Definition frames (t : tok) (f : frame) (fs : list frame) : tok :=
  mkt f fs (pb t) (is_double t) (st_pos t) (ucs_char t) (quote_char t) (err t) (started t).

Lemma fresh_inv : forall t f, Forall waiting (f :: below t) -> (S (depth t) < MAX_DEPTH)%nat ->
  Inv (frames t fresh (f :: below t)).
Proof.
  intros t f W D. split; [|split].
  - unfold frame_ok. cbn. unfold resume. tauto.
  - exact W.
  - unfold depth in *. cbn [below frames length]. exact D.
Qed.

Lemma push_arr : forall e t a c, Inv t -> top t = mkf S_eatws S_array (JArr a) None -> starter c ->
  (depth t < 31)%nat ->
  delta e t c = delta e (frames t fresh (mkf S_array_add S_array (JArr a) None :: below t)) c.
Proof.
  intros e t a c I T (N0 & N1 & N2 & N3 & _) D. unfold delta.
  destruct I as (_ & IW & ID).
  destruct t as [f fs p db sp uc q er sta]. cbn in T. subst f.
  apply N.eqb_neq in N2, N3.
  erewrite delta_dr.
  2:{ split; [|split; [exact IW|exact ID]]. unfold frame_ok. cbn. unfold resume, is_arr. split; [tauto|eauto]. }
  2:{ unfold dswitch. cbn [top state saved]. rewrite N1, N2. reflexivity. }
  erewrite delta_dr.
  2:{ split; [|split; [exact IW|exact ID]]. unfold frame_ok. cbn. unfold is_arr. eauto. }
  2:{ unfold dswitch. cbn [top state saved set_state set_top]. rewrite N3.
      replace (Nat.leb (MAX_DEPTH - 1) (depth _)) with false; [reflexivity|].
      symmetry. apply Nat.leb_gt. exact D. }
  reflexivity.
Qed.

Lemma push_obj : forall e t m k c, Inv t -> top t = mkf S_eatws S_object_value (JObj m) (Some k) -> starter c ->
  (depth t < 31)%nat ->
  delta e t c = delta e (frames t fresh (mkf S_object_value_add S_object_value (JObj m) (Some k) :: below t)) c.
Proof.
  intros e t m k c I T (N0 & N1 & N2 & _ & N3) D. unfold delta.
  destruct I as (_ & IW & ID).
  destruct t as [f fs p db sp uc q er sta]. cbn in T. subst f.
  apply N.eqb_neq in N2, N3.
  erewrite delta_dr.
  2:{ split; [|split; [exact IW|exact ID]]. unfold frame_ok. cbn. unfold resume, is_obj.
      split; [tauto|split; [eauto|discriminate]]. }
  2:{ unfold dswitch. cbn [top state saved]. rewrite N1, N2. reflexivity. }
  erewrite delta_dr.
  2:{ split; [|split; [exact IW|exact ID]]. unfold frame_ok. cbn. unfold is_obj.
      split; [eauto|discriminate]. }
  2:{ unfold dswitch. cbn [top state saved set_state set_top].
      replace (Nat.leb (MAX_DEPTH - 1) (depth _)) with false; [reflexivity|].
      symmetry. apply Nat.leb_gt. exact D. }
  reflexivity.
Qed.

Lemma blank_not_number : forall c, blank c -> number_char c = false.
Proof. intros c H. unfold blank, number_char in *. lia. Qed.

(** white space after a value, then the character that ends it *)
Lemma closes_ws : forall e t o w c, closes e t o -> ws w -> c <> 0 -> number_char c = false ->
  exists d, top d = done o /\ below d = below t /\ Inv d /\
    forall r, dsteps e t (w ++ c :: r) = dsteps e d (c :: r).
Proof.
  intros e t o w c K W N0 N1. destruct w as [|x w].
  - destruct (K c JNull N0 N1) as (d & A & B & C & D). exists d. repeat split; auto; try apply C.
    intros r. apply dsteps_same. exact D.
  - pose proof (Forall_inv W) as Bx. destruct (blank_space x Bx) as [_ X0].
    destruct (K x JNull X0 (blank_not_number x Bx)) as (d & A & B & C & D).
    exists d. split; [exact A|]. split; [exact B|]. split; [exact C|]. intros r.
    change ((x :: w) ++ c :: r) with (x :: (w ++ c :: r)).
    rewrite (dsteps_same e t d x _ D).
    change (x :: w ++ c :: r) with ((x :: w) ++ c :: r).
    rewrite dsteps_app, (ws_run e (x :: w) d W) by (rewrite A; reflexivity). reflexivity.
Qed.

(** a complete element is handed to the array, a complete member to the object *)
Lemma pop_arr : forall e d o a fs c, Inv d -> top d = done o ->
  below d = mkf S_array_add S_array (JArr a) None :: fs -> isspace c = false -> c <> 47 ->
  delta e d c = dredo 12 e (frames d (mkf S_array_sep S_array_sep (JArr (a ++ [o])) None) fs) o c
  /\ Inv (frames d (mkf S_array_sep S_array_sep (JArr (a ++ [o])) None) fs).
Proof.
  intros e d o a fs c I T B N1 N2. apply N.eqb_neq in N2.
  destruct I as (I1 & W & D).
  destruct d as [f bs p db sp uc q er sta]. cbn in T, B. subst f bs. cbn [below] in W.
  pose proof (Forall_inv_tail W) as W'.
  unfold depth in D. cbn [below length] in D.
  assert (J : forall s, (s = S_array_sep \/ s = S_array_add) ->
    Inv (mkt (mkf s S_array (JArr a) None) fs p db sp uc q er sta)).
  { intros s [-> | ->]; (split; [|split; [exact W'|unfold depth; cbn [below]; lia]]);
      unfold frame_ok; cbn; unfold is_arr; eauto. }
  assert (J2 : forall s s', (s = S_eatws /\ s' = S_array_sep) \/ s = S_array_sep ->
    Inv (mkt (mkf s s' (JArr (a ++ [o])) None) fs p db sp uc q er sta)).
  { intros s s' [[-> ->] | ->]; (split; [|split; [exact W'|unfold depth; cbn [below]; lia]]);
      unfold frame_ok; cbn; unfold is_arr, resume; try split; try tauto; eauto. }
  split; [|apply J2; right; reflexivity].
  unfold delta.
  erewrite delta_dr; [|split; [exact I1|split; [exact W|exact D]]|].
  2:{ unfold dswitch. cbn [top state done]. rewrite N1, N2. reflexivity. }
  erewrite delta_dr; [|split; [exact Logic.I|split; [exact W|exact D]]|reflexivity].
  erewrite delta_dr; [|apply J; right; reflexivity|reflexivity].
  apply delta_dr; [apply J2; left; auto|].
  unfold dswitch. cbn [top state set_state set_saved set_current set_top saved]. rewrite N1, N2. reflexivity.
Qed.

Lemma pop_obj : forall e d o m k fs c, Inv d -> top d = done o ->
  below d = mkf S_object_value_add S_object_value (JObj m) (Some k) :: fs -> isspace c = false -> c <> 47 ->
  delta e d c = dredo 12 e (frames d (mkf S_object_sep S_object_sep (JObj (object_add m k o)) None) fs) o c
  /\ Inv (frames d (mkf S_object_sep S_object_sep (JObj (object_add m k o)) None) fs).
Proof.
  intros e d o m k fs c I T B N1 N2. apply N.eqb_neq in N2.
  destruct I as (I1 & W & D).
  destruct d as [f bs p db sp uc q er sta]. cbn in T, B. subst f bs. cbn [below] in W.
  pose proof (Forall_inv_tail W) as W'.
  unfold depth in D. cbn [below length] in D.
  assert (J : Inv (mkt (mkf S_object_value_add S_object_value (JObj m) (Some k)) fs p db sp uc q er sta)).
  { split; [|split; [exact W'|unfold depth; cbn [below]; lia]].
    unfold frame_ok; cbn; unfold is_obj. split; [eauto|discriminate]. }
  assert (J2 : forall s s', (s = S_eatws /\ s' = S_object_sep) \/ s = S_object_sep ->
    Inv (mkt (mkf s s' (JObj (object_add m k o)) None) fs p db sp uc q er sta)).
  { intros s s' [[-> ->] | ->]; (split; [|split; [exact W'|unfold depth; cbn [below]; lia]]);
      unfold frame_ok; cbn; unfold is_obj, resume; try split; try tauto; eauto. }
  split; [|apply J2; right; reflexivity].
  unfold delta.
  erewrite delta_dr; [|split; [exact I1|split; [exact W|exact D]]|].
  2:{ unfold dswitch. cbn [top state done]. rewrite N1, N2. reflexivity. }
  erewrite delta_dr; [|split; [exact Logic.I|split; [exact W|exact D]]|reflexivity].
  erewrite delta_dr; [|exact J|reflexivity].
  apply delta_dr; [apply J2; left; auto|].
  unfold dswitch. cbn [top state set_state set_saved set_current set_field set_top saved]. rewrite N1, N2. reflexivity.
Qed.

Lemma arr_comma : forall e d o a fs r, Inv d -> top d = done o ->
  below d = mkf S_array_add S_array (JArr a) None :: fs ->
  dsteps e d (44 :: r) = dsteps e (frames d (mkf S_eatws S_array (JArr (a ++ [o])) None) fs) r.
Proof.
  intros e d o a fs r I T B. apply dsteps_one; [|discriminate].
  destruct (pop_arr e d o a fs 44 I T B eq_refl) as [-> _]; [discriminate|]. apply delta_dn. reflexivity.
Qed.
Lemma arr_end : forall e d o a fs r, Inv d -> top d = done o ->
  below d = mkf S_array_add S_array (JArr a) None :: fs ->
  dsteps e d (93 :: r) = dsteps e (frames d (done (JArr (a ++ [o]))) fs) r.
Proof.
  intros e d o a fs r I T B. apply dsteps_one; [|discriminate].
  destruct (pop_arr e d o a fs 93 I T B eq_refl) as [-> _]; [discriminate|]. apply delta_dn. reflexivity.
Qed.
Lemma obj_comma : forall e d o m k fs r, Inv d -> top d = done o ->
  below d = mkf S_object_value_add S_object_value (JObj m) (Some k) :: fs ->
  dsteps e d (44 :: r) = dsteps e (frames d (mkf S_eatws S_object_field_start (JObj (object_add m k o)) None) fs) r.
Proof.
  intros e d o m k fs r I T B. apply dsteps_one; [|discriminate].
  destruct (pop_obj e d o m k fs 44 I T B eq_refl) as [-> _]; [discriminate|]. apply delta_dn. reflexivity.
Qed.
Lemma obj_end : forall e d o m k fs r, Inv d -> top d = done o ->
  below d = mkf S_object_value_add S_object_value (JObj m) (Some k) :: fs ->
  dsteps e d (125 :: r) = dsteps e (frames d (done (JObj (object_add m k o))) fs) r.
Proof.
  intros e d o m k fs r I T B. apply dsteps_one; [|discriminate].
  destruct (pop_obj e d o m k fs 125 I T B eq_refl) as [-> _]; [discriminate|]. apply delta_dn. reflexivity.
Qed.
