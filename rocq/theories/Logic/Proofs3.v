From Coq Require Import Arith NArith ZArith List Bool Lia ZifyBool ZifyNat ZifyN.
From Verif Require Import Logic.Model Logic.Spec Logic.Proofs2.
Import ListNotations.
Ltac Zify.zify_post_hook ::= Z.div_mod_to_equations.
Local Open Scope N_scope.

(** * Completeness: the counts do not matter *)
Definition hd_is (f : N -> bool) (l : bytes) : Prop := match l with c :: _ => f c = true | [] => False end.
Definition hd_not (f : N -> bool) (l : bytes) : Prop := match l with c :: _ => f c = false | [] => True end.
Lemma chr_yes f c l m : f c = true -> exists m', chr f (c :: l) m = (Some (c, l), m').
Proof. intro H. unfold chr. rewrite H. eexists; reflexivity. Qed.
Lemma chr_no f l m : hd_not f l -> exists m', chr f l m = (None, m').
Proof. intro H. unfold chr. destruct l as [|c l]; [eexists; reflexivity|]. cbn [hd_not] in H. rewrite H. eexists; reflexivity. Qed.
Lemma str_yes s : forall l m, exists m', str s (s ++ l) m = (Some (tt, l), m').
Proof.
  induction s as [|c s IH]; intros l m; cbn [str app]; [eexists; reflexivity|].
  destruct (chr_yes (N.eqb c) c (s ++ l) m (N.eqb_refl c)) as (m' & ->). apply IH.
Qed.
Lemma str_no c s l m : hd_not (N.eqb c) l -> exists m', str (c :: s) l m = (None, m').
Proof. intro H. cbn [str]. destruct (chr_no _ l m H) as (m' & ->). eexists; reflexivity. Qed.
Lemma tk_app f a l : forallb f a = true -> hd_not f l -> tk f (a ++ l) = a /\ dr f (a ++ l) = l.
Proof.
  induction a as [|c a IH]; intros H N; cbn [app].
  - destruct l as [|c l]; [split; reflexivity|]. cbn [hd_not] in N. cbn [tk dr]. rewrite N. split; reflexivity.
  - cbn [forallb] in H. apply andb_true_iff in H as [H1 H2]. cbn [tk dr]. rewrite H1. destruct (IH H2 N) as [-> ->]. split; reflexivity.
Qed.
Lemma many_yes f a l m : forallb f a = true -> hd_not f l -> exists m', many f (a ++ l) m = (a, l, m').
Proof. intros H N. destruct (many_eq f (a ++ l) m) as (m' & -> & _). destruct (tk_app f a l H N) as [-> ->]. eexists; reflexivity. Qed.
Lemma dropws_app w l : ws w -> dropws (w ++ l) = dropws l.
Proof.
  intro W. apply ws_forallb in W. induction w as [|c w IH]; [reflexivity|]. cbn [forallb] in W. apply andb_true_iff in W as [W1 W2]. unfold dropws in *. cbn [app dr]. rewrite W1. apply IH, W2.
Qed.
Lemma dropws_id l : hd_not is_ws l -> dropws l = l.
Proof. destruct l as [|c l]; intro H; [reflexivity|]. cbn [hd_not] in H. unfold dropws. cbn [dr]. rewrite H. reflexivity. Qed.
Lemma dropws_hd l : hd_not is_ws (dropws l).
Proof. induction l as [|c l IH]; [exact Logic.I|]. unfold dropws in *. cbn [dr]. destruct (is_ws c) eqn:E; [exact IH|exact E]. Qed.
Lemma sp_yes w l m : ws w -> hd_not is_ws l -> exists m', sp (w ++ l) m = (l, m').
Proof. intros W H. destruct (sp_eq (w ++ l) m) as (m' & -> & _). rewrite dropws_app, dropws_id by assumption. eexists; reflexivity. Qed.

(** ** Literals *)
Lemma is_octal_q q : (q = 39 \/ q = 34) -> is_octal q = false.
Proof. intros [-> | ->]; reflexivity. Qed.
Lemma char_yes q raw rest m : (q = 39 \/ q = 34) -> okraw q raw = true -> raw <> [] ->
  exists u raw' m', char (raw ++ q :: rest) m = (Some (u, raw' ++ q :: rest), m') /\ raw = u ++ raw' /\ u <> [] /\ okraw q raw' = true.
Proof.
  intros Q H N. destruct raw as [|c t]; [congruence|]. cbn [app]. unfold char. rewrite match92. cbn [okraw] in H. apply andb_true_iff in H as [Hq H].
  destruct (N.eqb_spec c 92) as [->|Nc].
  - destruct t as [|d t1]; [discriminate|]. apply andb_true_iff in H as [He H]. cbn [app].
    destruct (is_esc d) eqn:Ed; [exists [92; d], t1; eexists; repeat split; [discriminate|exact H]|].
    destruct (is_octal d) eqn:Od.
    + destruct t1 as [|e t2].
      { cbn [app]. rewrite (is_octal_q q Q). exists [92; d], []. eexists. repeat split. discriminate. }
      cbn [app]. destruct (is_octal e) eqn:Oe; [|exists [92; d], (e :: t2); eexists; repeat split; [discriminate|exact H]].
      assert (H2 : okraw q t2 = true) by (rewrite <- (okraw_oct q e t2 Q Oe); exact H).
      destruct (d <=? 51); [|exists [92; d; e], t2; eexists; repeat split; [discriminate|exact H2]].
      destruct t2 as [|g t3]; cbn [app].
      { rewrite (is_octal_q q Q). exists [92; d; e], []. eexists. repeat split. discriminate. }
      destruct (is_octal g) eqn:Og.
      * exists [92; d; e; g], t3. eexists. repeat split; [discriminate|]. rewrite <- (okraw_oct q g t3 Q Og). exact H2.
      * exists [92; d; e], (g :: t3). eexists. repeat split; [discriminate|exact H2].
    + rewrite escapable_eq in He. rewrite Ed, Od in He. cbn [orb] in He. rewrite He. exists [92; d], t1. eexists. repeat split; [discriminate|exact H].
  - exists [c], t. eexists. repeat split; [discriminate|exact H].
Qed.
Lemma inside_yes q f : (q = 39 \/ q = 34) -> forall raw rest m, okraw q raw = true -> (length raw < f)%nat -> exists m', inside f q (raw ++ q :: rest) m = (raw, q :: rest, m').
Proof.
  intro Q. induction f as [|f IH]; intros raw rest m H L; [lia|]. cbn [inside]. destruct raw as [|c t].
  - cbn [app]. rewrite N.eqb_refl. eexists; reflexivity.
  - destruct (char_yes q (c :: t) rest m Q H ltac:(discriminate)) as (u & raw' & m1 & E & E1 & E2 & E3).
    cbn [app] in E |- *. cbn [okraw] in H. destruct (N.eqb_spec c q) as [->|]; [discriminate|]. rewrite E.
    assert (L' : (length raw' < f)%nat). { rewrite E1, app_length in L. destruct u; [congruence|]. cbn [length] in L. lia. }
    destruct (IH raw' rest m1 E3 L') as (m2 & ->). rewrite E1. eexists; reflexivity.
Qed.
Lemma literal_yes raw t rest m : quoted raw t -> exists m', literal (t ++ rest) m = (Some (raw, rest), m').
Proof.
  intros (q & Q & H & ->). unfold literal. cbn [app].
  destruct (chr_yes (fun c => (c =? 39) || (c =? 34)) q ((raw ++ [q]) ++ rest) m ltac:(destruct Q as [-> | ->]; reflexivity)) as (m1 & ->).
  rewrite <- app_assoc. cbn [app]. destruct (inside_yes q (S (length (raw ++ q :: rest))) Q raw rest m1 H ltac:(rewrite app_length; cbn [length]; lia)) as (m2 & ->).
  destruct (chr_yes (N.eqb q) q rest m2 (N.eqb_refl q)) as (m3 & ->). eexists; reflexivity.
Qed.
Lemma literal_no l m : hd_not (fun c => (c =? 39) || (c =? 34)) l -> exists m', literal l m = (None, m').
Proof. intro H. unfold literal. destruct (chr_no _ l m H) as (m' & ->). eexists; reflexivity. Qed.
Lemma name_yes x t rest m : name x t -> hd_not ident_cont rest -> exists m', left_literal (t ++ rest) m = (Some (x, rest), m').
Proof.
  intros [(c & r & -> & H1 & H2 & ->)|(raw & Hq & ->)] N; unfold left_literal, identifier.
  - cbn [app]. destruct (chr_yes ident_start c (r ++ rest) m H1) as (m1 & ->). destruct (many_yes ident_cont r rest m1 H2 N) as (m2 & ->). eexists; reflexivity.
  - assert (F : hd_not ident_start (t ++ rest)) by (destruct Hq as (q & [-> | ->] & _ & ->); reflexivity).
    destruct (chr_no _ _ m F) as (m1 & ->). destruct (literal_yes raw t rest m1 Hq) as (m2 & ->). eexists; reflexivity.
Qed.

(** ** Numbers *)
(** what may follow an expression *)
Definition follow (c : N) : bool := is_ws c || (c =? 44) || (c =? 41).
Definition sepok (l : bytes) : Prop := match l with [] => True | c :: _ => follow c = true end.
Lemma sepok_not f l : sepok l -> (forall c, follow c = true -> f c = false) -> hd_not f l.
Proof. destruct l; cbn [sepok hd_not]; intros; auto. Qed.
Lemma digits1_yes d rest m : digs d -> hd_not is_digit rest -> exists m', digits1 (d ++ rest) m = (Some (d, rest), m').
Proof.
  intros [N H] R. destruct d as [|c d]; [congruence|]. cbn [forallb] in H. apply andb_true_iff in H as [H1 H2]. unfold digits1. cbn [app].
  destruct (chr_yes is_digit c (d ++ rest) m H1) as (m1 & ->). destruct (many_yes is_digit d rest m1 H2 R) as (m2 & ->). eexists; reflexivity.
Qed.
Lemma digs_hd d rest : digs d -> exists c r, d ++ rest = c :: r /\ is_digit c = true.
Proof. intros [N H]. destruct d as [|c d]; [congruence|]. cbn [forallb] in H. apply andb_true_iff in H as [H1 _]. exists c, (d ++ rest). split; [reflexivity|exact H1]. Qed.
Lemma numeric_yes t rest m : numeral t -> sepok rest -> exists m', numeric (t ++ rest) m = (Some (t, rest), m').
Proof.
  intros (sg & d & fr & ex & -> & Hs & Hd & Hf & He) R. unfold numeric.
  assert (Ax : forall m, exists m', opt_exp (ex ++ rest) m = (ex, rest, m')).
  { intro k. unfold opt_exp. destruct He as [->|(c & r & -> & Hc & Hr)]; cbn [app].
    - destruct (chr_no (N.eqb 101) rest k) as (m1 & ->); [apply sepok_not; [exact R|]; unfold follow, is_ws; lia|]. eexists; reflexivity.
    - destruct (chr_yes (N.eqb 101) 101 (c :: r ++ rest) k eq_refl) as (m1 & ->).
      destruct (chr_yes is_sign c (r ++ rest) m1 ltac:(destruct Hc as [-> | ->]; reflexivity)) as (m2 & ->).
      destruct (digits1_yes r rest m2 Hr) as (m3 & ->); [apply sepok_not; [exact R|]; unfold follow, is_ws, is_digit; lia|]. eexists; reflexivity. }
  assert (Hx : forall f, (forall c, follow c = true -> f c = false) -> f 101 = false -> hd_not f (ex ++ rest)).
  { intros f F1 F2. destruct He as [->|(c & r & -> & _)]; [apply sepok_not; assumption|exact F2]. }
  assert (Af : forall m, exists m', opt_frac (fr ++ ex ++ rest) m = (fr, ex ++ rest, m')).
  { intro k. unfold opt_frac. destruct Hf as [->|(r & -> & Hr)]; cbn [app].
    - destruct (chr_no (N.eqb 46) (ex ++ rest) k) as (m1 & ->); [apply Hx; [unfold follow, is_ws; lia|reflexivity]|]. eexists; reflexivity.
    - destruct (chr_yes (N.eqb 46) 46 (r ++ ex ++ rest) k eq_refl) as (m1 & ->).
      destruct (digits1_yes r (ex ++ rest) m1 Hr) as (m3 & ->); [apply Hx; [unfold follow, is_ws, is_digit; lia|reflexivity]|]. eexists; reflexivity. }
  assert (Hf' : hd_not is_digit (fr ++ ex ++ rest)).
  { destruct Hf as [->|(r & -> & _)]; [apply Hx; [unfold follow, is_ws, is_digit; lia|reflexivity]|reflexivity]. }
  assert (As : exists m', opt_sign (sg ++ d ++ fr ++ ex ++ rest) m = (sg, d ++ fr ++ ex ++ rest, m')).
  { unfold opt_sign. destruct Hs as [->|Hs]; cbn [app].
    - destruct (chr_no is_sign (d ++ fr ++ ex ++ rest) m) as (m1 & ->); [|eexists; reflexivity].
      destruct (digs_hd d (fr ++ ex ++ rest) Hd) as (c & r & -> & Hc). cbn [hd_not]. unfold is_digit, is_sign in *. lia.
    - destruct Hs as [-> | ->]; cbn [app]; unfold chr; eexists; reflexivity. }
  rewrite <- !app_assoc. destruct As as (m1 & ->). destruct (digits1_yes d (fr ++ ex ++ rest) m1 Hd Hf') as (m2 & ->).
  destruct (Af m2) as (m3 & ->). destruct (Ax m3) as (m4 & ->). eexists; reflexivity.
Qed.
Lemma numeral_hd t rest : numeral t -> exists c r, t ++ rest = c :: r /\ (is_digit c = true \/ is_sign c = true).
Proof.
  intros (sg & d & fr & ex & -> & Hs & Hd & _). rewrite <- !app_assoc. destruct Hs as [->|[-> | ->]].
  - destruct (digs_hd d (fr ++ ex ++ rest) Hd) as (c & r & E & Hc). exists c, r. split; [exact E|left; exact Hc].
  - eexists _, _. split; [reflexivity|right; reflexivity].
  - eexists _, _. split; [reflexivity|right; reflexivity].
Qed.
Lemma value_yes v t rest m : value v t -> sepok rest -> exists m', right_literal (t ++ rest) m = (Some (v, rest), m').
Proof.
  intros [(raw & Hq & ->)|[Hn ->]] R; unfold right_literal.
  - destruct (literal_yes raw t rest m Hq) as (m1 & ->). eexists; reflexivity.
  - destruct (literal_no (t ++ rest) m) as (m1 & ->).
    { destruct (numeral_hd t rest Hn) as (c & r & -> & Hc). cbn [hd_not]. unfold is_digit, is_sign in Hc. lia. }
    destruct (numeric_yes t rest m1 Hn R) as (m2 & ->). eexists; reflexivity.
Qed.
Definition value_hd (c : N) : bool := is_digit c || is_sign c || (c =? 39) || (c =? 34).
Lemma value_head v t rest : value v t -> hd_is value_hd (t ++ rest).
Proof.
  intros [(raw & (q & [-> | ->] & _ & ->) & _)|[Hn _]]; try reflexivity. destruct (numeral_hd t rest Hn) as (c & r & -> & Hc). cbn [hd_is]. unfold value_hd. destruct Hc as [-> | ->]; [reflexivity|].
  rewrite orb_true_r. reflexivity.
Qed.
Lemma hd_is_not f g l : hd_is f l -> (forall c, f c = true -> g c = false) -> hd_not g l.
Proof. destruct l; cbn [hd_is hd_not]; intros; auto. Qed.
Lemma ws_or_hd f w l : ws w -> (forall c, is_ws c = true -> f c = true) -> hd_is f l -> hd_is f (w ++ l).
Proof.
  intros W F H. apply ws_forallb in W. destruct w as [|c w]; [exact H|]. cbn [forallb] in W. apply andb_true_iff in W as [W1 _]. cbn [app hd_is]. apply F, W1.
Qed.
Lemma operator_yes op to l m : optext op to -> hd_not (N.eqb 61) l -> exists m', operator (to ++ l) m = (Some (op, l), m').
Proof.
  intros O H. rewrite operator_eq. destruct O; cbn [app]; unfold operator'; cbn -[see]; try (eexists; reflexivity).
  - destruct l as [|d l]; [eexists; reflexivity|]. cbn [hd_not] in H. rewrite (N.eqb_sym d 61), H. eexists; reflexivity.
  - destruct l as [|d l]; [eexists; reflexivity|]. cbn [hd_not] in H. rewrite (N.eqb_sym d 61), H. eexists; reflexivity.
Qed.
Lemma op_head op to l : optext op to -> hd_is (fun c => (c =? 61) || (c =? 33) || (c =? 126) || (c =? 60) || (c =? 62)) (to ++ l).
Proof. intro O; destruct O; reflexivity. Qed.
Lemma operator_no l m : hd_is (N.eqb 40) l -> exists m', operator l m = (None, m').
Proof. destruct l as [|c l]; intro H; [destruct H|]. cbn [hd_is] in H. apply N.eqb_eq in H. subst c. rewrite operator_eq. unfold operator'. cbn -[see]. eexists; reflexivity. Qed.
Lemma name_head x t rest : name x t -> hd_is (fun c => ident_start c || (c =? 39) || (c =? 34)) (t ++ rest).
Proof.
  intros [(c & r & -> & H1 & _ & _)|(raw & (q & [-> | ->] & _ & ->) & _)]; try reflexivity. cbn [app hd_is]. change first_char with ident_start in H1; rewrite H1. reflexivity.
Qed.
Lemma ident_ws c : ident_cont c = true -> is_ws c = false.
Proof. unfold ident_cont, ident_start, is_digit, is_ws. lia. Qed.

Section P.
Variable re_ok : bytes -> bool.
Definition ident_text (k : bytes) : Prop := exists c r, k = c :: r /\ ident_start c = true /\ forallb ident_cont r = true.
(** a word followed by an opening parenthesis is not a comparison *)
Lemma word_no k w l m : ident_text k -> ws w -> (forall m, exists m', exists_pred re_ok (k ++ w ++ 40 :: l) m = (None, m')) ->
  exists m', predicate re_ok (k ++ w ++ 40 :: l) m = (None, m').
Proof.
  intros (c & r & -> & H1 & H2) W X. unfold predicate.
  destruct (name_yes (c :: r) (c :: r) (w ++ 40 :: l) m) as (m1 & E).
  { left. exists c, r. repeat split; assumption. }
  { eapply hd_is_not with (f := fun c => is_ws c || (c =? 40)); [apply ws_or_hd; [exact W|intros ? ->; reflexivity|reflexivity]|]. intro d. unfold ident_cont, ident_start, is_digit, is_ws. lia. }
  rewrite E. destruct (sp_yes w (40 :: l) m1 W eq_refl) as (m2 & ->). destruct (operator_no (40 :: l) m2 eq_refl) as (m3 & ->). apply X.
Qed.
Lemma ptext_yes n t rest m : ptext re_ok n t -> sepok rest -> exists m', predicate re_ok (t ++ rest) m = (Some (n, rest), m').
Proof.
  intros P R. destruct P as [x tx w1 op to w2 v tv Hx W1 Ho W2 Hv|x tx w1 w2 w3 Hx W1 W2 W3].
  - unfold predicate. rewrite <- !app_assoc.
    destruct (name_yes x tx (w1 ++ to ++ w2 ++ tv ++ rest) m Hx) as (m1 & ->).
    { eapply hd_is_not; [apply ws_or_hd with (f := fun c => is_ws c || ((c =? 61) || (c =? 33) || (c =? 126) || (c =? 60) || (c =? 62))); [exact W1|intros ? ->; reflexivity|]|].
      - pose proof (op_head op to (w2 ++ tv ++ rest) Ho) as H. destruct (to ++ w2 ++ tv ++ rest); [exact H|]. cbn [hd_is] in *. rewrite H. apply orb_true_r.
      - intro d. unfold ident_cont, ident_start, is_digit, is_ws. lia. }
    destruct (sp_yes w1 (to ++ w2 ++ tv ++ rest) m1 W1) as (m2 & ->); [eapply hd_is_not; [exact (op_head op to (w2 ++ tv ++ rest) Ho)|]; unfold is_ws; intro; lia|].
    assert (VH : hd_is (fun c => is_ws c || value_hd c) (w2 ++ tv ++ rest)).
    { apply ws_or_hd; [exact W2|intros ? ->; reflexivity|]. pose proof (value_head v tv rest Hv) as H. destruct (tv ++ rest); [exact H|]. cbn [hd_is] in *. rewrite H. apply orb_true_r. }
    destruct (operator_yes op to (w2 ++ tv ++ rest) m2 Ho) as (m3 & ->); [eapply hd_is_not; [exact VH|]; unfold is_ws, value_hd, is_digit, is_sign; intro; lia|].
    destruct (sp_yes w2 (tv ++ rest) m3 W2) as (m4 & ->); [eapply hd_is_not; [apply (value_head v), Hv|]; unfold is_ws, value_hd, is_digit, is_sign; intro; lia|].
    destruct (value_yes v tv rest m4 Hv R) as (m5 & ->). eexists; reflexivity.
  - assert (XY : forall k, exists m', exists_pred re_ok (([101; 120; 105; 115; 116; 115] ++ w1 ++ 40 :: w2 ++ tx ++ w3 ++ [41]) ++ rest) k =
                   (Some (Pred EXISTS x (Right RInt []), rest), m')).
    { intro k. unfold exists_pred. rewrite <- app_assoc. destruct (str_yes [101; 120; 105; 115; 116; 115] ((w1 ++ 40 :: w2 ++ tx ++ w3 ++ [41]) ++ rest) k) as (m1 & ->).
      rewrite <- app_assoc. cbn [app]. destruct (sp_yes w1 (40 :: (w2 ++ tx ++ w3 ++ [41]) ++ rest) m1 W1 eq_refl) as (m2 & ->).
      destruct (chr_yes (N.eqb 40) 40 ((w2 ++ tx ++ w3 ++ [41]) ++ rest) m2 eq_refl) as (m3 & ->). rewrite <- !app_assoc. cbn [app].
      destruct (sp_yes w2 (tx ++ w3 ++ 41 :: rest) m3 W2) as (m4 & ->); [eapply hd_is_not; [apply (name_head x), Hx|]; unfold is_ws, ident_start; intro; lia|].
      destruct (name_yes x tx (w3 ++ 41 :: rest) m4 Hx) as (m5 & ->).
      { eapply hd_is_not with (f := fun c => is_ws c || (c =? 41)); [apply ws_or_hd; [exact W3|intros ? ->; reflexivity|reflexivity]|]. intro d. unfold ident_cont, ident_start, is_digit, is_ws. lia. }
      destruct (sp_yes w3 (41 :: rest) m5 W3 eq_refl) as (m6 & ->). destruct (chr_yes (N.eqb 41) 41 rest m6 eq_refl) as (m7 & ->). eexists; reflexivity. }
    unfold predicate.
    assert (F : exists m', (match left_literal (([101; 120; 105; 115; 116; 115] ++ w1 ++ 40 :: w2 ++ tx ++ w3 ++ [41]) ++ rest) m with
       | (None, m) => (None, m)
       | (Some (i, l), m) => let (l, m) := sp l m in match operator l m with
           | (None, m) => (None, m)
           | (Some (op, l), m) => let (l, m) := sp l m in match right_literal l m with (None, m) => (None, m) | (Some (r, l), m) => (Some (mk_pred re_ok i op r, l), m) end
           end end) = (None, m')).
    { rewrite <- app_assoc. destruct (name_yes [101; 120; 105; 115; 116; 115] [101; 120; 105; 115; 116; 115] ((w1 ++ 40 :: w2 ++ tx ++ w3 ++ [41]) ++ rest) m) as (m1 & ->).
      - left. eexists _, _. repeat split.
      - rewrite <- app_assoc. cbn [app]. eapply hd_is_not with (f := fun c => is_ws c || (c =? 40)); [apply ws_or_hd; [exact W1|intros ? ->; reflexivity|reflexivity]|]. intro d. unfold ident_cont, ident_start, is_digit, is_ws. lia.
      - rewrite <- app_assoc. cbn [app]. destruct (sp_yes w1 (40 :: (w2 ++ tx ++ w3 ++ [41]) ++ rest) m1 W1 eq_refl) as (m2 & ->).
        destruct (operator_no (40 :: (w2 ++ tx ++ w3 ++ [41]) ++ rest) m2 eq_refl) as (m3 & ->). eexists; reflexivity. }
    destruct F as (m' & ->). apply XY.
Qed.

(** ** Statements *)
Definition leaves (n : node) (rest : bytes) : bytes := match n with Oper _ _ => dropws rest | _ => rest end.
Lemma etext_head n t rest : etext re_ok n t -> hd_not is_ws (t ++ rest).
Proof.
  intro E. destruct E as [n t P|n t w1 w2 w3 E W1 W2 W3|o to n t ns ts w1 w2 w3 O E A W1 W2 W3]; try reflexivity.
  - destruct P as [x tx w1 op to w2 v tv Hx W1 Ho W2 Hv|x tx w1 w2 w3 Hx W1 W2 W3]; [|reflexivity]. rewrite <- app_assoc.
    eapply hd_is_not; [apply (name_head x), Hx|]. unfold is_ws, ident_start. intro; lia.
  - destruct O; reflexivity.
Qed.
Lemma etext_not_nil n t : etext re_ok n t -> (2 <= length t)%nat.
Proof.
  intro E. destruct E as [n t P|n t w1 w2 w3 E W1 W2 W3|o to n t ns ts w1 w2 w3 O E A W1 W2 W3].
  - destruct P as [x tx w1 op to w2 v tv Hx W1 Ho W2 Hv|x tx w1 w2 w3 Hx W1 W2 W3].
    + pose proof (op_head op to [] Ho) as H1. pose proof (name_head x tx [] Hx) as H2. rewrite app_nil_r in *. rewrite !app_length. destruct tx, to; cbn [hd_is length] in *; try contradiction; lia.
    + rewrite app_length. cbn [length]. lia.
  - rewrite app_length. cbn [length]. lia.
  - rewrite app_length. destruct O; cbn [length]; lia.
Qed.
Lemma atext_follow ns ts rest : atext re_ok ns ts -> sepok (ts ++ 41 :: rest).
Proof.
  intro A. destruct A as [w W|n t ns ts w1 w2 W1 E W2 C A]; [|reflexivity]. apply ws_forallb in W. destruct w as [|c w]; [reflexivity|]. cbn [forallb] in W. apply andb_true_iff in W as [W _].
  cbn [app sepok]. unfold follow. rewrite W. reflexivity.
Qed.
Lemma sepok_ws w l : ws w -> sepok l -> sepok (w ++ l).
Proof.
  intros W H. apply ws_forallb in W. destruct w as [|c w]; [exact H|]. cbn [forallb] in W. apply andb_true_iff in W as [W _]. cbn [app sepok]. unfold follow. rewrite W. reflexivity.
Qed.
Lemma call_yes name args o es l w1 w2 (arg rest : bytes) m : ws w1 -> ws w2 -> hd_not is_ws (arg ++ rest) -> l = name ++ w1 ++ 40 :: w2 ++ arg ++ rest ->
  (forall m, exists l1 m1 l2, args (arg ++ rest) m = (Some (es, l1), m1) /\ dropws l1 = 41 :: l2 /\ dropws l2 = dropws (tl (dropws rest))) ->
  exists m', call name args o l m = (Some (Oper o es, dropws (tl (dropws rest))), m').
Proof.
  intros W1 W2 HN -> A. unfold call. destruct (str_yes name (w1 ++ 40 :: w2 ++ arg ++ rest) m) as (m1 & ->).
  destruct (sp_yes w1 (40 :: w2 ++ arg ++ rest) m1 W1 eq_refl) as (m2 & ->). destruct (chr_yes (N.eqb 40) 40 (w2 ++ arg ++ rest) m2 eq_refl) as (m3 & ->).
  destruct (sp_yes w2 (arg ++ rest) m3 W2 HN) as (m4 & ->).
  destruct (A m4) as (l1 & m5 & l2 & -> & D1 & D2). destruct (sp_eq l1 m5) as (m6 & -> & _). rewrite D1.
  destruct (chr_yes (N.eqb 41) 41 l2 m6 eq_refl) as (m7 & ->). destruct (sp_eq l2 m7) as (m8 & -> & _). rewrite D2. eexists; reflexivity.
Qed.
Lemma statement_yes k : forall n t, etext re_ok n t -> (length t < k)%nat -> forall f rest m, (k <= f)%nat -> sepok rest ->
  exists m', statement re_ok f (t ++ rest) m = (Some (n, leaves n rest), m').
Proof.
  induction k as [k IH] using lt_wf_ind. intros n t E L f rest m F R.
  destruct f as [|f]; [lia|]. cbn [statement].
  destruct E as [n t P|n t w1 w2 w3 E W1 W2 W3|o to n t ns ts w1 w2 w3 O E A W1 W2 W3].
  - destruct (ptext_yes n t rest m P R) as (m1 & ->). exists m1. destruct P as [x tx w1 op to w2 v tv Hx W1 Ho W2 Hv|]; [|reflexivity].
    unfold leaves, mk_pred. destruct op; try reflexivity; destruct (re_ok (rtext v)); reflexivity.
  - set (l := ([110; 111; 116] ++ w1 ++ 40 :: w2 ++ t ++ w3 ++ [41]) ++ rest).
    assert (El : l = [110; 111; 116] ++ w1 ++ 40 :: w2 ++ t ++ w3 ++ 41 :: rest) by (unfold l; repeat (rewrite <- app_assoc; cbn [app]); reflexivity).
    destruct (word_no [110; 111; 116] w1 (w2 ++ t ++ w3 ++ 41 :: rest) m) as (m1 & Ep); [eexists _, _; repeat split|exact W1|intro; unfold exists_pred; edestruct str_no as (m' & ->); [|eexists; reflexivity]; reflexivity|].
    rewrite El, Ep. clear Ep.
    destruct (call_yes [110; 111; 116] (args1 (statement re_ok f)) LNot [n] l w1 w2 t (w3 ++ 41 :: rest) m1 W1 W2) as (m2 & Ec).
    + apply (etext_head n), E.
    + exact El.
    + intro m2. unfold args1. rewrite !app_length in L. cbn [length] in L. rewrite !app_length in L.
      destruct (IH (k - 1)%nat ltac:(lia) n t E ltac:(lia) f (w3 ++ 41 :: rest) m2 ltac:(lia)) as (m3 & ->); [apply sepok_ws; [exact W3|reflexivity]|].
      destruct (sp_eq (leaves n (w3 ++ 41 :: rest)) m3) as (m4 & -> & _). eexists _, m4, rest. split; [reflexivity|].
      assert (D : dropws (w3 ++ 41 :: rest) = 41 :: rest) by (rewrite dropws_app by exact W3; reflexivity).
      rewrite D. split; [|reflexivity]. unfold leaves. destruct n; rewrite ?D; reflexivity.
    + rewrite <- El, Ec. exists m2. cbn [leaves]. rewrite dropws_app by exact W3. reflexivity.
  - set (l := (to ++ w1 ++ 40 :: w2 ++ t ++ w3 ++ ts ++ [41]) ++ rest).
    assert (El : l = to ++ w1 ++ 40 :: w2 ++ t ++ w3 ++ ts ++ 41 :: rest) by (unfold l; repeat (rewrite <- app_assoc; cbn [app]); reflexivity).
    assert (Ll : (length t + length ts + 2 < k)%nat) by (rewrite !app_length in L; cbn [length] in L; rewrite !app_length in L; cbn [length] in L; destruct O; cbn [length] in L; lia).
    (* the arguments after the first *)
    assert (MO : forall ns ts, atext re_ok ns ts -> (length ts + 2 < k)%nat -> forall g l m, (length ts < g)%nat ->
                   (l = ts ++ 41 :: rest \/ l = dropws (ts ++ 41 :: rest)) ->
                   exists l1 m1, more g (statement re_ok f) l m = (ns, l1, m1) /\ dropws l1 = 41 :: rest).
    { clear -IH F R. intros ns. induction ns as [|n ns IHn]; intros ts A Lt g l m G El; inversion A as [w W|n' t ns' ts' w1 w2 W1 E W2 C A']; subst.
      - assert (D : dropws (ts ++ 41 :: rest) = 41 :: rest) by (rewrite dropws_app by exact W; reflexivity).
        exists l. destruct g as [|g]; [lia|]. cbn [more].
        assert (HN : hd_not (N.eqb 44) l).
        { destruct El as [->| ->]; [|rewrite D; reflexivity]. eapply hd_is_not with (f := fun c => is_ws c || (c =? 41)); [apply ws_or_hd; [exact W|intros ? ->; reflexivity|reflexivity]|]. unfold is_ws. intro; lia. }
        destruct (chr_no _ l m HN) as (m1 & ->). exists m1. split; [reflexivity|]. destruct El as [->| ->]; [exact D|rewrite D; reflexivity].
      - assert (El' : l = 44 :: w1 ++ t ++ w2 ++ ts' ++ 41 :: rest).
        { destruct El as [->| ->]; [|rewrite dropws_id by reflexivity]; cbn [app]; repeat (rewrite <- app_assoc; cbn [app]); reflexivity. }
        subst l. clear El. cbn [length] in Lt, G. rewrite !app_length in Lt, G. destruct g as [|g]; [lia|]. cbn [more].
        destruct (chr_yes (N.eqb 44) 44 (w1 ++ t ++ w2 ++ ts' ++ 41 :: rest) m eq_refl) as (m1 & ->).
        destruct (sp_yes w1 (t ++ w2 ++ ts' ++ 41 :: rest) m1 W1) as (m2 & ->); [apply (etext_head n), E|].
        destruct (IH (k - 1)%nat ltac:(lia) n t E ltac:(lia) f (w2 ++ ts' ++ 41 :: rest) m2 ltac:(lia)) as (m3 & ->); [apply sepok_ws; [exact W2|apply (atext_follow ns), A']|].
        destruct (IHn ts' A' ltac:(lia) g (leaves n (w2 ++ ts' ++ 41 :: rest)) m3 ltac:(lia)) as (l1 & m4 & -> & D).
        + unfold leaves. destruct n as [|? ? ?|? ?]; [| |right; apply dropws_app, W2]; left; (destruct w2 as [|c w2]; [reflexivity|exfalso; apply C; discriminate]).
        + exists l1, m4. split; [reflexivity|exact D]. }
    assert (AY : forall m, exists l1 m1 l2, args f (statement re_ok f) (t ++ w3 ++ ts ++ 41 :: rest) m = (Some (n :: ns, l1), m1) /\ dropws l1 = 41 :: l2 /\ dropws l2 = dropws rest).
    { intro m2. unfold args.
      destruct (IH (k - 1)%nat ltac:(lia) n t E ltac:(lia) f (w3 ++ ts ++ 41 :: rest) m2 ltac:(lia)) as (m3 & ->); [apply sepok_ws; [exact W3|apply (atext_follow ns), A]|].
      destruct (sp_eq (leaves n (w3 ++ ts ++ 41 :: rest)) m3) as (m4 & -> & _).
      assert (D : dropws (leaves n (w3 ++ ts ++ 41 :: rest)) = dropws (ts ++ 41 :: rest)).
      { unfold leaves. destruct n; try (apply dropws_app, W3). rewrite (dropws_id (dropws _)) by apply dropws_hd. apply dropws_app, W3. }
      rewrite D. destruct (MO ns ts A ltac:(lia) f (dropws (ts ++ 41 :: rest)) m4 ltac:(lia) (or_intror eq_refl)) as (l1 & m5 & -> & D1).
      exists l1, m5, rest. split; [reflexivity|]. split; [exact D1|reflexivity]. }
    assert (CY : forall m, exists m', call to (args f (statement re_ok f)) o l m = (Some (Oper o (n :: ns), dropws rest), m')).
    { intro m2. rewrite El. unfold call. destruct (str_yes to (w1 ++ 40 :: w2 ++ t ++ w3 ++ ts ++ 41 :: rest) m2) as (m3 & ->).
      destruct (sp_yes w1 (40 :: w2 ++ t ++ w3 ++ ts ++ 41 :: rest) m3 W1 eq_refl) as (m4 & ->).
      destruct (chr_yes (N.eqb 40) 40 (w2 ++ t ++ w3 ++ ts ++ 41 :: rest) m4 eq_refl) as (m5 & ->).
      destruct (sp_yes w2 (t ++ w3 ++ ts ++ 41 :: rest) m5 W2) as (m6 & ->); [apply (etext_head n), E|].
      destruct (AY m6) as (l1 & m7 & l2 & -> & D1 & D2). destruct (sp_eq l1 m7) as (m8 & -> & _). rewrite D1.
      destruct (chr_yes (N.eqb 41) 41 l2 m8 eq_refl) as (m9 & ->). destruct (sp_eq l2 m9) as (m10 & -> & _). rewrite D2. eexists; reflexivity. }
    cbn [leaves].
    destruct (word_no to w1 (w2 ++ t ++ w3 ++ ts ++ 41 :: rest) m) as (m1 & Ep).
    { destruct O; eexists _, _; repeat split. }
    { exact W1. }
    { intro m1. unfold exists_pred. edestruct (str_no 101 [120; 105; 115; 116; 115]) as (m' & ->); [|eexists; reflexivity]. destruct O; reflexivity. }
    rewrite El, Ep, <- El. clear Ep.
    assert (CN : exists m', call [110; 111; 116] (args1 (statement re_ok f)) LNot l m1 = (None, m')).
    { unfold call. edestruct (str_no 110 [111; 116] l m1) as (m' & ->); [|eexists; reflexivity]. rewrite El. destruct O; reflexivity. }
    destruct CN as (m2 & ->). destruct O.
    + destruct (CY m2) as (m3 & ->). eexists; reflexivity.
    + assert (CA : exists m', call [97; 110; 100] (args f (statement re_ok f)) LAnd l m2 = (None, m')).
      { unfold call. edestruct (str_no 97 [110; 100] l m2) as (m' & ->); [|eexists; reflexivity]. rewrite El. reflexivity. }
      destruct CA as (m3 & ->). apply CY.
Qed.
Theorem parse_yes n t w : etext re_ok n t -> ws w -> (w <> [] -> compound n) -> parse re_ok (t ++ w) = Some n.
Proof.
  intros E W C. unfold parse. cbn [expressions].
  assert (R : sepok w) by (rewrite <- (app_nil_r w); apply sepok_ws; [exact W|exact Logic.I]).
  destruct (statement_yes (S (length t)) n t E ltac:(lia) (S (length (t ++ w))) w (length (t ++ w)) ltac:(rewrite app_length; lia) R) as (m1 & E1).
  assert (LV : leaves n w = []).
  { unfold leaves. destruct n; [| |rewrite <- (app_nil_r w), dropws_app by exact W; reflexivity]; (destruct w; [reflexivity|exfalso; apply C; discriminate]). }
  rewrite LV in E1. pose proof (statement_ok re_ok (S (length (t ++ w))) (t ++ w) (length (t ++ w)) (le_n _)) as OK. rewrite E1 in OK |- *.
  cbn [okr length] in OK. destruct OK as [OK _]. pose proof (etext_not_nil n t E) as L2. rewrite app_length. destruct (length t + length w)%nat eqn:X; [lia|]. cbn [expressions].
  replace (statement re_ok (S (length [])) [] m1) with (@None (node * bytes), m1) by reflexivity.
  destruct m1; [reflexivity|lia].
Qed.
End P.

(** * Escapes *)
Lemma unescape_plain f c t : c <> 92 -> unescape (S f) (c :: t) = c :: unescape f t.
Proof. intro H. destruct c as [|p]; [reflexivity|]. do 7 (destruct p as [p|p|]; try reflexivity); congruence. Qed.
Lemma denotes_unescape raw v : denotes raw v -> forall f, (length raw < f)%nat -> unescape f raw = v.
Proof.
  induction 1; intros f L; (destruct f as [|f]; [cbn [length] in L; lia|]); cbn [length] in L.
  - reflexivity.
  - rewrite unescape_plain by assumption. rewrite IHdenotes by lia. reflexivity.
  - unfold letters in H. cbn [In] in H. repeat (destruct H as [H|H]; [injection H as <- <-; cbn [unescape]; rewrite IHdenotes by lia; reflexivity|]). destruct H.
  - assert (A : a = 48 \/ a = 49 \/ a = 50 \/ a = 51) by (unfold octal in H; lia).
    change octal with is_octal in *.
    assert (M : (((a - 48) * 8 + (b - 48)) * 8 + (c - 48)) mod 256 = 64 * (a - 48) + 8 * (b - 48) + (c - 48)).
    { unfold is_octal in *. rewrite N.mod_small by lia. lia. }
    destruct A as [-> |[-> |[-> | ->]]]; cbn [unescape]; change (is_octal _) with true at 1; cbv iota; rewrite H0, H1; cbn [andb]; rewrite IHdenotes by lia; rewrite <- M; reflexivity.
  - change octal with is_octal in *.
    assert (A : a = 48 \/ a = 49 \/ a = 50 \/ a = 51 \/ a = 52 \/ a = 53 \/ a = 54 \/ a = 55) by (unfold is_octal in H; lia).
    assert (M : (a - 48) * 8 + (b - 48) = 8 * (a - 48) + (b - 48)) by lia.
    destruct A as [-> |[-> |[-> |[-> |[-> |[-> |[-> | ->]]]]]]]; cbn [unescape]; change (is_octal _) with true at 1; cbv iota; rewrite H0;
      (destruct r as [|g r']; [|try (destruct H1 as [H1|H1]; [lia|rewrite H1])]); cbn [andb]; rewrite ?andb_false_r; rewrite IHdenotes by (cbn [length] in *; lia); rewrite <- M; reflexivity.
  - change octal with is_octal in *.
    assert (A : a = 48 \/ a = 49 \/ a = 50 \/ a = 51 \/ a = 52 \/ a = 53 \/ a = 54 \/ a = 55) by (unfold is_octal in H; lia).
    destruct A as [-> |[-> |[-> |[-> |[-> |[-> |[-> | ->]]]]]]]; cbn [unescape]; change (is_octal _) with true at 1; cbv iota;
      (destruct r as [|g r']; [|rewrite H0]); rewrite IHdenotes by (cbn [length] in *; lia); reflexivity.
  - change octal with is_octal in *.
    assert (E : unescape (S f) (92 :: c :: r) = unescape f (c :: r)).
    { cbn [unescape]. destruct (N.eq_dec c 97); [exfalso; apply H1; subst; cbn; tauto|].
      destruct (N.eq_dec c 98); [exfalso; apply H1; subst; cbn; tauto|].
      destruct (N.eq_dec c 101); [exfalso; apply H1; subst; cbn; tauto|].
      destruct (N.eq_dec c 102); [exfalso; apply H1; subst; cbn; tauto|].
      destruct (N.eq_dec c 110); [exfalso; apply H1; subst; cbn; tauto|].
      destruct (N.eq_dec c 114); [exfalso; apply H1; subst; cbn; tauto|].
      destruct (N.eq_dec c 116); [exfalso; apply H1; subst; cbn; tauto|].
      destruct (N.eq_dec c 118); [exfalso; apply H1; subst; cbn; tauto|].
      destruct (N.eq_dec c 39); [exfalso; apply H1; subst; cbn; tauto|].
      destruct (N.eq_dec c 34); [exfalso; apply H1; subst; cbn; tauto|].
      clear H1 H2 IHdenotes L. destruct c as [|p]; [reflexivity|].
      do 7 (destruct p as [p|p|]; try congruence; try (rewrite H0; reflexivity)). }
    rewrite E. destruct f as [|f]; [lia|]. rewrite unescape_plain by assumption. rewrite IHdenotes by lia. reflexivity.
  - reflexivity.
Qed.
Lemma nonul_cstr s : ~ In 0 s -> cstr s = s.
Proof. induction s as [|c s IH]; intro H; [reflexivity|]. cbn [cstr]. destruct (N.eqb_spec c 0) as [->|_]; [exfalso; apply H; left; reflexivity|]. rewrite IH by (intro; apply H; right; assumption). reflexivity. Qed.
Theorem denotes_meaning raw v : ~ In 0 raw -> denotes raw v -> meaning raw = cstr v.
Proof. intros N0 D. unfold meaning. rewrite (nonul_cstr raw N0), (denotes_unescape raw v D) by lia. reflexivity. Qed.
Lemma escape_unescape s : Forall (fun c => 0 < c < 256) s -> forall f, (length (escape s) < f)%nat -> unescape f (escape s) = s.
Proof.
  induction s as [|c s IH]; intros H f L; inversion_clear H as [|? ? H1 H2].
  - destruct f; [cbn [escape flat_map length] in L; lia|reflexivity].
  - unfold escape in *. cbn [flat_map] in *. unfold escape1 in *. rewrite app_length in L. destruct f as [|f]; [lia|].
    destruct ((c =? 39) || (c =? 34) || (c =? 92)) eqn:Q.
    + assert (C : c = 39 \/ c = 34 \/ c = 92) by lia. cbn [length] in L. destruct C as [-> |[-> | ->]]; cbn [app unescape]; rewrite IH by (assumption || lia); reflexivity.
    + destruct (N.ltb_spec c 32).
      * cbn [length] in L. replace (48 + c / 64) with 48 by lia. cbn [app].
        assert (O1 : is_octal (48 + c / 8 mod 8) = true) by (unfold is_octal; lia). assert (O2 : is_octal (48 + c mod 8) = true) by (unfold is_octal; lia).
        cbn [unescape]. change (is_octal 48) with true. cbv iota. rewrite O1, O2. change ((48 <=? 51) && true) with true. cbv iota. rewrite IH by (assumption || lia). f_equal. lia.
      * cbn [app length] in *. rewrite unescape_plain by lia. rewrite IH by (assumption || lia). reflexivity.
Qed.
Lemma escape_nonul s : Forall (fun c => 0 < c < 256) s -> cstr (escape s) = escape s.
Proof.
  induction s as [|c s IH]; intro H; inversion_clear H as [|? ? H1 H2]; [reflexivity|]. unfold escape in *. cbn [flat_map]. set (t := flat_map escape1 s) in *. clearbody t. specialize (IH H2). unfold escape1.
  assert (Z : forall x, x <> 0 -> (x =? 0) = false) by (intros; lia).
  destruct ((c =? 39) || (c =? 34) || (c =? 92)); [|destruct (c <? 32)]; cbn [app cstr];
    rewrite ?(Z 92), ?(Z c), ?(Z (48 + c / 64)), ?(Z (48 + c / 8 mod 8)), ?(Z (48 + c mod 8)), ?IH by (assumption || discriminate || lia); reflexivity.
Qed.
Lemma cstr_bytes s : Forall (fun c => 0 < c < 256) s -> cstr s = s.
Proof. induction s as [|c s IH]; intro H; inversion_clear H; [reflexivity|]. cbn [cstr]. destruct (N.eqb_spec c 0); [lia|]. rewrite IH by assumption. reflexivity. Qed.
Theorem meaning_escape s : Forall (fun c => 0 < c < 256) s -> meaning (escape s) = s.
Proof. intro H. unfold meaning. rewrite escape_nonul by exact H. rewrite escape_unescape by (exact H || lia). apply cstr_bytes, H. Qed.
Theorem escape_okraw q s : q = 39 \/ q = 34 -> okraw q (escape s) = true.
Proof.
  intro Q. induction s as [|c s IH]; [reflexivity|]. unfold escape in *. cbn [flat_map]. set (t := flat_map escape1 s) in *. clearbody t. unfold escape1.
  assert (B : (92 =? q) = false) by (destruct Q as [-> | ->]; reflexivity).
  destruct ((c =? 39) || (c =? 34) || (c =? 92)) eqn:E.
  - cbn [app okraw]. rewrite B. cbn [negb andb]. change (92 =? 92) with true. cbv iota. rewrite IH, andb_true_r. rewrite escapable_eq; unfold is_esc. cbn [existsb]. lia.
  - destruct (N.ltb_spec c 32).
    + cbn [app okraw]. rewrite B. cbn [negb andb]. change (92 =? 92) with true. cbv iota. rewrite IH. rewrite escapable_eq; unfold is_octal.
      destruct (N.eqb_spec (48 + c / 8 mod 8) q); [lia|]. destruct (N.eqb_spec (48 + c / 8 mod 8) 92); [lia|]. destruct (N.eqb_spec (48 + c mod 8) q); [lia|]. destruct (N.eqb_spec (48 + c mod 8) 92); [lia|].
      destruct (is_esc (48 + c / 64)); [reflexivity|]. cbn [orb negb andb]. lia.
    + cbn [app okraw]. rewrite IH. destruct (N.eqb_spec c q); [lia|]. destruct (N.eqb_spec c 92); [lia|]. reflexivity.
Qed.
