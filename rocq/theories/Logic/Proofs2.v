From Coq Require Import Arith NArith ZArith List Bool Lia ZifyBool ZifyNat ZifyN.
From Verif Require Import Logic.Model Logic.Spec.
Import ListNotations.
Ltac Zify.zify_post_hook ::= Z.div_mod_to_equations.
Local Open Scope N_scope.

Definition okr {A} (T : A -> bytes -> Prop) (l : bytes) (r : res A) : Prop :=
  match r with
  | (Some (x, l'), m') => (m' <= length l')%nat /\ exists t, l = t ++ l' /\ T x t
  | (None, m') => (m' <= length l)%nat
  end.
Lemma escapable_eq d : escapable d = is_esc d || is_octal d || (d =? 45).
Proof. reflexivity. Qed.
Lemma see_le l m : (m <= length l)%nat -> (see l m <= length (tl l))%nat.
Proof. destruct l; cbn [see tl length]; lia. Qed.
Lemma see_le' l m : (m <= length l)%nat -> (see l m <= length l)%nat.
Proof. destruct l; cbn [see tl length]; lia. Qed.

(** * Soundness, with the unread count *)
Lemma chr_ok f l m : (m <= length l)%nat -> okr (fun c t => t = [c] /\ f c = true) l (chr f l m).
Proof.
  intro H. unfold chr. destruct l as [|c t]; [exact H|]. pose proof (see_le (c :: t) m H). pose proof (see_le' (c :: t) m H).
  destruct (f c) eqn:E; [|assumption]. split; [assumption|]. exists [c]. repeat split; assumption.
Qed.
Lemma str_ok s : forall l m, (m <= length l)%nat -> okr (fun _ t => t = s) l (str s l m).
Proof.
  induction s as [|c s IH]; intros l m H; cbn [str].
  - split; [exact H|]. exists []. split; reflexivity.
  - pose proof (chr_ok (N.eqb c) l m H) as C. destruct (chr (N.eqb c) l m) as [[[d t]|] m1]; [|exact C].
    destruct C as (C1 & p & C2 & -> & C3). apply N.eqb_eq in C3. subst d. specialize (IH t m1 C1). destruct (str s t m1) as [[[u t']|] m2]; cbn [okr] in *.
    + destruct IH as (I1 & q & I2 & ->). split; [exact I1|]. exists (c :: s). subst t l. split; reflexivity.
    + subst l. rewrite app_length. lia.
Qed.
Fixpoint tk (f : N -> bool) (l : bytes) : bytes := match l with c :: t => if f c then c :: tk f t else [] | [] => [] end.
Fixpoint dr (f : N -> bool) (l : bytes) : bytes := match l with c :: t => if f c then dr f t else l | [] => [] end.
Lemma tk_dr f l : l = tk f l ++ dr f l.
Proof. induction l as [|c l IH]; [reflexivity|]. cbn [tk dr]. destruct (f c); [cbn [app]; f_equal; exact IH|reflexivity]. Qed.
Lemma tk_all f l : forallb f (tk f l) = true.
Proof. induction l as [|c l IH]; [reflexivity|]. cbn [tk]. destruct (f c) eqn:E; [cbn [forallb]; rewrite E; exact IH|reflexivity]. Qed.
Lemma many_eq f l : forall m, exists m', many f l m = (tk f l, dr f l, m') /\ ((m <= length l)%nat -> (m' <= length (dr f l))%nat).
Proof.
  induction l as [|c t IH]; intro m; cbn [many tk dr].
  - exists m. split; [reflexivity|tauto].
  - destruct (f c).
    + destruct (IH (see (c :: t) m)) as (m' & -> & L). exists m'. split; [reflexivity|]. intro H. apply L. apply (see_le (c :: t) m H).
    + eexists; split; [reflexivity|]. apply see_le'.
Qed.
Definition is_ws (c : N) : bool := (c =? 32) || (c =? 9) || (c =? 10) || (c =? 13).
Definition dropws := dr is_ws.
Lemma ws_forallb w : ws w <-> forallb is_ws w = true.
Proof.
  unfold ws. rewrite Forall_forall, forallb_forall. unfold is_ws. split; intros H x I; specialize (H x I); lia.
Qed.
Lemma sp_eq l : forall m, exists m', sp l m = (dropws l, m') /\ ((m <= length l)%nat -> (m' <= length (dropws l))%nat).
Proof.
  remember (length l) as n eqn:En. revert l En. induction n as [n IH] using lt_wf_ind. intros l En m.
  destruct l as [|c t]; cbn [sp]; [exists m; split; [reflexivity|subst n; tauto]|].
  cbn [length] in En. unfold dropws in *. cbn [dr]. unfold is_ws at 1 3.
  destruct ((c =? 32) || (c =? 9) || (c =? 10)) eqn:E; cbn [orb].
  - destruct (IH (length t) ltac:(lia) t eq_refl (see (c :: t) m)) as (m' & -> & L). exists m'. split; [reflexivity|]. intro H. apply L.
    apply (see_le (c :: t) m). cbn [length]; lia.
  - destruct (N.eqb_spec c 13) as [->|N13].
    + destruct t as [|d t']; [eexists; split; [reflexivity|]; intro H; apply (see_le [13] m); cbn [length] in *; lia|].
      destruct (N.eqb_spec d 10) as [->|N10].
      * cbn [dr]. change (is_ws 10) with true. cbv iota. destruct (IH (length t') ltac:(cbn [length] in En; lia) t' eq_refl (see (10 :: t') (see (13 :: 10 :: t') m))) as (m' & -> & L).
        exists m'. split; [reflexivity|]. intro H. apply L. apply (see_le (10 :: t')). apply (see_le (13 :: 10 :: t') m). cbn [length] in *; lia.
      * destruct (IH (length (d :: t')) ltac:(cbn [length] in *; lia) (d :: t') eq_refl (see (d :: t') (see (13 :: d :: t') m))) as (m' & -> & L).
        exists m'. split; [reflexivity|]. intro H. apply L. apply (see_le' (d :: t')). apply (see_le (13 :: d :: t') m). cbn [length] in *; lia.
    + eexists; split; [reflexivity|]. intro H. apply see_le'. cbn [length]; lia.
Qed.
Lemma sp_ok l m : (m <= length l)%nat -> exists l' m' w, sp l m = (l', m') /\ (m' <= length l')%nat /\ l = w ++ l' /\ ws w.
Proof.
  intro H. destruct (sp_eq l m) as (m' & E & L). exists (dropws l), m', (tk is_ws l). split; [exact E|]. split; [apply L, H|].
  split; [apply tk_dr|apply ws_forallb, tk_all].
Qed.
Lemma octal_plain c : is_octal c = true -> (c =? 92) = false /\ (c =? 39) = false /\ (c =? 34) = false.
Proof. unfold is_octal. lia. Qed.
Lemma okraw_oct q c t : (q = 39 \/ q = 34) -> is_octal c = true -> okraw q (c :: t) = okraw q t.
Proof.
  intros Q O. destruct (octal_plain c O) as (O1 & O2 & O3). cbn [okraw]. rewrite O1. destruct Q as [-> | ->]; [rewrite O2|rewrite O3]; reflexivity.
Qed.
Lemma match92 {A} (c : N) (x y : A) : (match c with 92 => x | _ => y end) = if c =? 92 then x else y.
Proof.
  destruct c as [|p]; [reflexivity|]. do 7 (destruct p as [p|p|]; try reflexivity).
Qed.
Lemma char_ok l m : (m <= length l)%nat -> okr (fun u t => u = t /\ u <> [] /\ forall q r, (q = 39 \/ q = 34) -> (exists c s, l = c :: s /\ c <> q) -> okraw q (u ++ r) = okraw q r) l (char l m).
Proof.
  intro H. unfold char. pose proof (see_le' l m H) as S0. pose proof (see_le l m H) as S1. destruct l as [|c t]; [exact S0|]. cbn [tl] in S1.
  set (m1 := see (c :: t) m) in *. clearbody m1. rewrite match92. destruct (N.eqb_spec c 92) as [->|Nc].
  - pose proof (see_le' t m1 S1) as S2. pose proof (see_le t m1 S1) as S3. destruct t as [|d t1]; [cbn [okr length] in *; lia|]. cbn [tl] in S3.
    set (m2 := see (d :: t1) m1) in *. clearbody m2.
    assert (B : forall q, (q = 39 \/ q = 34) -> (92 =? q) = false) by (intros q [-> | ->]; reflexivity).
    assert (K : forall q r, (q = 39 \/ q = 34) -> escapable d = true -> okraw q (92 :: d :: r) = okraw q r).
    { intros q r Q E. cbn [okraw]. rewrite (B q Q). change (92 =? 92) with true. cbv iota. rewrite E. reflexivity. }
    destruct (is_esc d) eqn:Ed.
    { split; [exact S3|]. exists [92; d]. split; [reflexivity|]. split; [reflexivity|]. split; [discriminate|]. intros q r Q _. apply K; [exact Q|]. rewrite escapable_eq. rewrite Ed. reflexivity. }
    destruct (is_octal d) eqn:Od.
    + assert (Esc : escapable d = true) by (rewrite escapable_eq; rewrite Od, orb_true_r; reflexivity).
      pose proof (see_le' t1 m2 S3) as S4. pose proof (see_le t1 m2 S3) as S5. set (m3 := see t1 m2) in *. clearbody m3.
      destruct t1 as [|e t2].
      { split; [exact S4|]. exists [92; d]. split; [reflexivity|]. split; [reflexivity|]. split; [discriminate|]. intros q r Q _. apply K; assumption. }
      cbn [tl] in S5. destruct (is_octal e) eqn:Oe.
      * assert (K2 : forall q r, (q = 39 \/ q = 34) -> okraw q ([92; d; e] ++ r) = okraw q r) by (intros q r Q; cbn [app]; rewrite K by assumption; apply okraw_oct; assumption).
        destruct (d <=? 51).
        -- pose proof (see_le' t2 m3 S5) as S6. pose proof (see_le t2 m3 S5) as S7. set (m4 := see t2 m3) in *. clearbody m4.
           destruct t2 as [|g t3]; [|cbn [tl] in S7; destruct (is_octal g) eqn:Og].
           ++ split; [exact S6|]. exists [92; d; e]. split; [reflexivity|]. split; [reflexivity|]. split; [discriminate|]. intros q r Q _. apply K2, Q.
           ++ split; [exact S7|]. exists [92; d; e; g]. split; [reflexivity|]. split; [reflexivity|]. split; [discriminate|]. intros q r Q _.
              change ([92; d; e; g] ++ r) with ([92; d; e] ++ g :: r). rewrite K2 by exact Q. apply okraw_oct; assumption.
           ++ split; [exact S6|]. exists [92; d; e]. split; [reflexivity|]. split; [reflexivity|]. split; [discriminate|]. intros q r Q _. apply K2, Q.
        -- split; [exact S5|]. exists [92; d; e]. split; [reflexivity|]. split; [reflexivity|]. split; [discriminate|]. intros q r Q _. apply K2, Q.
      * split; [exact S4|]. exists [92; d]. split; [reflexivity|]. split; [reflexivity|]. split; [discriminate|]. intros q r Q _. apply K; assumption.
    + destruct (d =? 45) eqn:E45.
      * split; [exact S3|]. exists [92; d]. split; [reflexivity|]. split; [reflexivity|]. split; [discriminate|]. intros q r Q _. apply K; [exact Q|].
        rewrite escapable_eq. rewrite E45, orb_true_r. reflexivity.
      * cbn [okr length] in *; lia.
  - split; [exact S1|]. exists [c]. split; [reflexivity|]. split; [reflexivity|]. split; [discriminate|]. intros q r Q (c' & s' & E & N). injection E as <- <-.
    cbn [app okraw]. rewrite (proj2 (N.eqb_neq _ _) N), (proj2 (N.eqb_neq _ _) Nc). reflexivity.
Qed.
Lemma inside_ok q (Q : q = 39 \/ q = 34) f : forall l m, (m <= length l)%nat ->
  exists r l' m', inside f q l m = (r, l', m') /\ (m' <= length l')%nat /\ l = r ++ l' /\ okraw q r = true.
Proof.
  induction f as [|f IH]; intros l m H; cbn [inside]; [exists [], l, m; repeat split; assumption|].
  destruct l as [|c t]; [exists [], [], m; repeat split; assumption|].
  destruct (N.eqb_spec c q) as [E|E]; [exists [], (c :: t), (see (c :: t) m); repeat split; apply see_le', H|].
  pose proof (char_ok (c :: t) m H) as C. destruct (char (c :: t) m) as [[[u t']|] m1].
  - destruct C as (C1 & u' & C2 & <- & C3 & C4). destruct (IH t' m1 C1) as (r & l' & m' & -> & I1 & I2 & I3).
    exists (u ++ r), l', m'. split; [reflexivity|]. split; [exact I1|]. split; [rewrite C2, I2, app_assoc; reflexivity|].
    rewrite C4; [exact I3|exact Q|]. exists c, t. split; [reflexivity|exact E].
  - exists [], (c :: t), m1. repeat split. exact C.
Qed.
Lemma literal_ok l m : (m <= length l)%nat -> okr quoted l (literal l m).
Proof.
  intro H. unfold literal. pose proof (chr_ok (fun c => (c =? 39) || (c =? 34)) l m H) as C. destruct (chr _ l m) as [[[q t]|] m1]; [|exact C].
  destruct C as (C1 & p & C2 & -> & C3). assert (Q : q = 39 \/ q = 34) by lia.
  destruct (inside_ok q Q (S (length t)) t m1 C1) as (r & l' & m' & -> & I1 & I2 & I3).
  pose proof (chr_ok (N.eqb q) l' m' I1) as C'. destruct (chr (N.eqb q) l' m') as [[[d t']|] m2]; cbn [okr] in *.
  - destruct C' as (D1 & p & D2 & -> & D3). apply N.eqb_eq in D3. subst d. split; [exact D1|]. exists (q :: r ++ [q]). split.
    + rewrite C2, I2, D2. cbn [app]. rewrite <- app_assoc. reflexivity.
    + exists q. repeat split; assumption.
  - rewrite C2, I2, !app_length. lia.
Qed.
Lemma identifier_ok l m : (m <= length l)%nat -> okr (fun x t => x = t /\ exists c r, t = c :: r /\ ident_start c = true /\ forallb ident_cont r = true) l (identifier l m).
Proof.
  intro H. unfold identifier. pose proof (chr_ok ident_start l m H) as C. destruct (chr ident_start l m) as [[[c t]|] m1]; [|exact C].
  destruct C as (C1 & p & C2 & -> & C3). destruct (many_eq ident_cont t m1) as (m' & -> & L). cbn [okr]. split; [apply L, C1|].
  exists (c :: tk ident_cont t). split; [rewrite C2; cbn [app]; f_equal; apply tk_dr|]. split; [reflexivity|]. exists c, (tk ident_cont t). repeat split; [exact C3|apply tk_all].
Qed.
Lemma left_literal_ok l m : (m <= length l)%nat -> okr name l (left_literal l m).
Proof.
  intro H. unfold left_literal. pose proof (identifier_ok l m H) as I. destruct (identifier l m) as [[[x t]|] m1].
  - destruct I as (I1 & p & I2 & -> & c & r & I3 & I4 & I5). split; [exact I1|]. exists p. split; [exact I2|]. left. exists c, r. repeat split; assumption.
  - pose proof (literal_ok l m1 I) as L. destruct (literal l m1) as [[[x t]|] m2]; [|exact L].
    destruct L as (L1 & p & L2 & L3). split; [exact L1|]. exists p. split; [exact L2|]. right. exists x. split; [exact L3|reflexivity].
Qed.
Lemma digits1_ok l m : (m <= length l)%nat -> okr (fun x t => x = t /\ digs t) l (digits1 l m).
Proof.
  intro H. unfold digits1. pose proof (chr_ok is_digit l m H) as C. destruct (chr is_digit l m) as [[[c t]|] m1]; [|exact C].
  destruct C as (C1 & p & C2 & -> & C3). destruct (many_eq is_digit t m1) as (m' & -> & L). cbn [okr]. split; [apply L, C1|].
  exists (c :: tk is_digit t). split; [rewrite C2; cbn [app]; f_equal; apply tk_dr|]. split; [reflexivity|]. split; [discriminate|]. change decimal with is_digit. cbn [forallb]. rewrite C3. apply tk_all.
Qed.
Lemma numeric_ok l m : (m <= length l)%nat -> okr (fun x t => x = t /\ numeral t) l (numeric l m).
Proof.
  intro H. unfold numeric. pose proof (chr_ok is_sign l m H) as C.
  assert (A : exists sg l1 m1, opt_sign l m = (sg, l1, m1) /\
              (m1 <= length l1)%nat /\ l = sg ++ l1 /\ (sg = [] \/ sg = [43] \/ sg = [45])).
  { unfold opt_sign. destruct (chr is_sign l m) as [[[c t]|] m1].
    - destruct C as (C1 & p & C2 & -> & C3). exists [c], t, m1. repeat split; try assumption. unfold is_sign in C3.
      assert (Cc : c = 43 \/ c = 45) by lia. destruct Cc as [-> | ->]; auto.
    - exists [], l, m1. repeat split; auto. }
  destruct A as (sg & l1 & m1 & -> & A1 & A2 & A3). clear C.
  pose proof (digits1_ok l1 m1 A1) as DD. destruct (digits1 l1 m1) as [[[d l2]|] m2]; [|cbn [okr] in *; rewrite A2, app_length; lia].
  destruct DD as (D1 & p & D2 & <- & D3).
  assert (B : exists fr l3 m3, opt_frac l2 m2 = (fr, l3, m3) /\ (m3 <= length l3)%nat /\ l2 = fr ++ l3 /\ (fr = [] \/ exists r, fr = 46 :: r /\ digs r)).
  { unfold opt_frac. pose proof (chr_ok (N.eqb 46) l2 m2 D1) as C. destruct (chr (N.eqb 46) l2 m2) as [[[c t]|] m3].
    - destruct C as (C1 & p & C2 & -> & C3). apply N.eqb_eq in C3. subst c. pose proof (digits1_ok t m3 C1) as E. destruct (digits1 t m3) as [[[r t']|] m4].
      + destruct E as (E1 & p & E2 & <- & E3). exists (46 :: r), t', m4. split; [reflexivity|]. split; [exact E1|]. split; [rewrite C2, E2; reflexivity|]. right. exists r. split; [reflexivity|exact E3].
      + cbn [okr] in E. exists [], l2, m4. split; [reflexivity|]. split; [rewrite C2, app_length; lia|]. auto.
    - exists [], l2, m3. repeat split; auto. }
  destruct B as (fr & l3 & m3 & -> & B1 & B2 & B3).
  assert (X : exists ex l4 m4, opt_exp l3 m3 = (ex, l4, m4) /\ (m4 <= length l4)%nat /\ l3 = ex ++ l4 /\
              (ex = [] \/ exists c r, ex = 101 :: c :: r /\ (c = 43 \/ c = 45) /\ digs r)).
  { unfold opt_exp. pose proof (chr_ok (N.eqb 101) l3 m3 B1) as C. destruct (chr (N.eqb 101) l3 m3) as [[[c t]|] m4].
    - destruct C as (C1 & p & C2 & -> & C3). apply N.eqb_eq in C3. subst c. pose proof (chr_ok is_sign t m4 C1) as C. destruct (chr is_sign t m4) as [[[c t']|] m5].
      + destruct C as (E1 & p & E2 & -> & E3). pose proof (digits1_ok t' m5 E1) as F. destruct (digits1 t' m5) as [[[r t'']|] m6].
        * destruct F as (F1 & p & F2 & <- & F3). exists (101 :: c :: r), t'', m6. split; [reflexivity|]. split; [exact F1|]. split; [rewrite C2, E2, F2; reflexivity|].
          right. exists c, r. unfold is_sign in E3. split; [reflexivity|]. split; [lia|exact F3].
        * cbn [okr] in F. exists [], l3, m6. split; [reflexivity|]. split; [rewrite C2, E2, !app_length; lia|]. auto.
      + cbn [okr] in C. exists [], l3, m5. split; [reflexivity|]. split; [rewrite C2, app_length; lia|]. auto.
    - exists [], l3, m4. repeat split; auto. }
  destruct X as (ex & l4 & m4 & -> & X1 & X2 & X3). cbn [okr]. split; [exact X1|]. exists (sg ++ d ++ fr ++ ex).
  split; [rewrite A2, D2, B2, X2, <- !app_assoc; reflexivity|]. split; [reflexivity|]. exists sg, d, fr, ex. split; [reflexivity|]. split; [exact A3|]. split; [exact D3|]. split; assumption.
Qed.
Lemma right_literal_ok l m : (m <= length l)%nat -> okr value l (right_literal l m).
Proof.
  intro H. unfold right_literal. pose proof (literal_ok l m H) as I. destruct (literal l m) as [[[x t]|] m1].
  - destruct I as (I1 & p & I2 & I3). split; [exact I1|]. exists p. split; [exact I2|]. left. exists x. split; [exact I3|reflexivity].
  - pose proof (numeric_ok l m1 I) as L. destruct (numeric l m1) as [[[x t]|] m2]; [|exact L].
    destruct L as (L1 & p & L2 & <- & L3). split; [exact L1|]. exists x. split; [exact L2|]. right. split; [exact L3|reflexivity].
Qed.
(** [operator] with the comparisons in the open *)
Definition operator' (l : bytes) (m : nat) : res pop :=
  match l with
  | [] => (None, m)
  | c :: t =>
      let m := see l m in
      if c =? 61 then (Some (EQ, t), m)
      else if c =? 126 then (Some (RE, t), m)
      else if c =? 33 then
        match t with d :: t' => if d =? 61 then (Some (NE, t'), see t m) else if d =? 126 then (Some (NRE, t'), see t m) else (None, see t m) | [] => (None, see t m) end
      else if c =? 60 then
        match t with d :: t' => if d =? 61 then (Some (LE, t'), see t m) else (Some (LT, t), see t m) | [] => (Some (LT, t), see t m) end
      else if c =? 62 then
        match t with d :: t' => if d =? 61 then (Some (GE, t'), see t m) else (Some (GT, t), see t m) | [] => (Some (GT, t), see t m) end
      else (None, m)
  end.
Lemma operator_eq l m : operator l m = operator' l m.
Proof.
  destruct l as [|c t]; [reflexivity|]. unfold operator, operator'. cbv zeta. set (m1 := see (c :: t) m). clearbody m1.
  destruct c as [|p]; [reflexivity|].
  do 7 (try (destruct p as [p|p|]; try reflexivity));
    (destruct t as [|d t]; [reflexivity|]; set (m2 := see (d :: t) m1); clearbody m2;
     destruct d as [|k]; [reflexivity|]; do 7 (try (destruct k as [k|k|]; try reflexivity))).
Qed.
Lemma operator_ok l m : (m <= length l)%nat -> okr optext l (operator l m).
Proof.
  intro H. rewrite operator_eq. unfold operator'. destruct l as [|c t]; [exact H|]. pose proof (see_le (c :: t) m H) as S1. cbn [tl] in S1. cbv zeta. set (m1 := see (c :: t) m) in *. clearbody m1.
  pose proof (see_le' t m1 S1) as S2. pose proof (see_le t m1 S1) as S3. set (m2 := see t m1) in *. clearbody m2.
  destruct (N.eqb_spec c 61) as [->|]; [split; [exact S1|]; exists [61]; split; [reflexivity|constructor]|].
  destruct (N.eqb_spec c 126) as [->|]; [split; [exact S1|]; exists [126]; split; [reflexivity|constructor]|].
  destruct (N.eqb_spec c 33) as [->|].
  { destruct t as [|d t']; [cbn [okr length] in *; lia|]. cbn [tl] in S3. destruct (N.eqb_spec d 61) as [->|]; [split; [exact S3|]; exists [33; 61]; split; [reflexivity|constructor]|].
    destruct (N.eqb_spec d 126) as [->|]; [split; [exact S3|]; exists [33; 126]; split; [reflexivity|constructor]|cbn [okr length] in *; lia]. }
  destruct (N.eqb_spec c 60) as [->|].
  { destruct t as [|d t']; [split; [exact S2|]; exists [60]; split; [reflexivity|constructor]|]. cbn [tl] in S3.
    destruct (N.eqb_spec d 61) as [->|]; [split; [exact S3|]; exists [60; 61]; split; [reflexivity|constructor]|split; [exact S2|]; exists [60]; split; [reflexivity|constructor]]. }
  destruct (N.eqb_spec c 62) as [->|].
  { destruct t as [|d t']; [split; [exact S2|]; exists [62]; split; [reflexivity|constructor]|]. cbn [tl] in S3.
    destruct (N.eqb_spec d 61) as [->|]; [split; [exact S3|]; exists [62; 61]; split; [reflexivity|constructor]|split; [exact S2|]; exists [62]; split; [reflexivity|constructor]]. }
  cbn [okr length] in *; lia.
Qed.

Section P.
Variable re_ok : bytes -> bool.
Ltac spstep l m H := let l' := fresh "l" in let m' := fresh "m" in let w := fresh "w" in let E := fresh "E" in let L := fresh "L" in let A := fresh "A" in let W := fresh "W" in
  destruct (sp_ok l m H) as (l' & m' & w & E & L & A & W); rewrite E; clear E.
Lemma exists_ok l m : (m <= length l)%nat -> okr (ptext re_ok) l (exists_pred re_ok l m).
Proof.
  intro H. unfold exists_pred. pose proof (str_ok [101; 120; 105; 115; 116; 115] l m H) as R. destruct (str _ l m) as [[[u l1]|] m1]; [|exact R].
  destruct R as (R1 & p & R2 & ->). destruct (sp_ok l1 m1 R1) as (l2 & m2 & w1 & -> & L2 & A2 & W1).
  pose proof (chr_ok (N.eqb 40) l2 m2 L2) as R. destruct (chr (N.eqb 40) l2 m2) as [[[c l3]|] m3]; [|cbn [okr] in *; rewrite R2, A2, !app_length; lia].
  destruct R as (R3 & p & R4 & -> & R5). apply N.eqb_eq in R5. subst c. destruct (sp_ok l3 m3 R3) as (l4 & m4 & w2 & -> & L4 & A4 & W2).
  pose proof (left_literal_ok l4 m4 L4) as R. destruct (left_literal l4 m4) as [[[x l5]|] m5]; [|cbn [okr] in *; rewrite R2, A2, R4, A4, !app_length; lia].
  destruct R as (R6 & p & R7 & R8). destruct (sp_ok l5 m5 R6) as (l6 & m6 & w3 & -> & L6 & A6 & W3).
  pose proof (chr_ok (N.eqb 41) l6 m6 L6) as R. destruct (chr (N.eqb 41) l6 m6) as [[[c l7]|] m7]; [|cbn [okr] in *; rewrite R2, A2, R4, A4, R7, A6, !app_length; lia].
  destruct R as (R9 & q & R10 & -> & R11). apply N.eqb_eq in R11. subst c. cbn [okr]. split; [exact R9|].
  exists ([101; 120; 105; 115; 116; 115] ++ w1 ++ 40 :: w2 ++ p ++ w3 ++ [41]). split.
  - rewrite R2, A2, R4, A4, R7, A6, R10. cbn [app]. repeat (rewrite <- app_assoc; cbn [app]). reflexivity.
  - apply p_exists; assumption.
Qed.
Lemma predicate_ok l m : (m <= length l)%nat -> okr (ptext re_ok) l (predicate re_ok l m).
Proof.
  intro H. unfold predicate.
  set (first := match left_literal l m with (None, m) => (None, m) | (Some (i, l), m) => _ end).
  assert (F : okr (ptext re_ok) l first).
  { unfold first. clear first. pose proof (left_literal_ok l m H) as R. destruct (left_literal l m) as [[[x l1]|] m1]; [|exact R].
    destruct R as (R1 & p & R2 & R3). destruct (sp_ok l1 m1 R1) as (l2 & m2 & w1 & -> & L2 & A2 & W1).
    pose proof (operator_ok l2 m2 L2) as R. destruct (operator l2 m2) as [[[op l3]|] m3]; [|cbn [okr] in *; rewrite R2, A2, !app_length; lia].
    destruct R as (R4 & to & R5 & R6). destruct (sp_ok l3 m3 R4) as (l4 & m4 & w2 & -> & L4 & A4 & W2).
    pose proof (right_literal_ok l4 m4 L4) as R. destruct (right_literal l4 m4) as [[[v l5]|] m5]; [|cbn [okr] in *; rewrite R2, A2, R5, A4, !app_length; lia].
    destruct R as (R7 & tv & R8 & R9). cbn [okr]. split; [exact R7|]. exists (p ++ w1 ++ to ++ w2 ++ tv). split.
    - rewrite R2, A2, R5, A4, R8, <- !app_assoc. reflexivity.
    - apply p_cmp; assumption. }
  destruct first as [[x|] m1]; [exact F|]. apply exists_ok, F.
Qed.
(** the text of a whole statement with the spaces it takes along *)
Definition stext (n : node) (t : bytes) : Prop := exists u w, t = u ++ w /\ etext re_ok n u /\ ws w /\ (w <> [] -> compound n).
Lemma ws_app a b : ws a -> ws b -> ws (a ++ b).
Proof. intros; apply Forall_app; split; assumption. Qed.
Lemma call_ok name args o l m : (m <= length l)%nat ->
  (forall l m, (m <= length l)%nat -> okr (fun ns t => forall w1 w2 w3, ws w1 -> ws w2 -> ws w3 -> etext re_ok (Oper o ns) (name ++ w1 ++ 40 :: w2 ++ t ++ w3 ++ [41])) l (args l m)) ->
  okr stext l (call name args o l m).
Proof.
  intros H G. unfold call. pose proof (str_ok name l m H) as R. destruct (str name l m) as [[[u l1]|] m1]; [|exact R].
  destruct R as (R1 & p & R2 & ->). destruct (sp_ok l1 m1 R1) as (l2 & m2 & w1 & -> & L2 & A2 & W1).
  pose proof (chr_ok (N.eqb 40) l2 m2 L2) as R. destruct (chr (N.eqb 40) l2 m2) as [[[c l3]|] m3]; [|cbn [okr] in *; rewrite R2, A2, !app_length; lia].
  destruct R as (R3 & p & R4 & -> & R5). apply N.eqb_eq in R5. subst c. destruct (sp_ok l3 m3 R3) as (l4 & m4 & w2 & -> & L4 & A4 & W2).
  pose proof (G l4 m4 L4) as R. destruct (args l4 m4) as [[[ns l5]|] m5]; [|cbn [okr] in *; rewrite R2, A2, R4, A4, !app_length; lia].
  destruct R as (R6 & p & R7 & R8). destruct (sp_ok l5 m5 R6) as (l6 & m6 & w3 & -> & L6 & A6 & W3).
  pose proof (chr_ok (N.eqb 41) l6 m6 L6) as R. destruct (chr (N.eqb 41) l6 m6) as [[[c l7]|] m7]; [|cbn [okr] in *; rewrite R2, A2, R4, A4, R7, A6, !app_length; lia].
  destruct R as (R9 & q & R10 & -> & R11). apply N.eqb_eq in R11. subst c. destruct (sp_ok l7 m7 R9) as (l8 & m8 & w4 & -> & L8 & A8 & W4). cbn [okr]. split; [exact L8|].
  exists ((name ++ w1 ++ 40 :: w2 ++ p ++ w3 ++ [41]) ++ w4). split.
  - rewrite R2, A2, R4, A4, R7, A6, R10, A8. cbn [app]. repeat (rewrite <- app_assoc; cbn [app]). reflexivity.
  - exists (name ++ w1 ++ 40 :: w2 ++ p ++ w3 ++ [41]), w4. split; [reflexivity|]. split; [apply R8; assumption|]. split; [exact W4|]. intros _. exact Logic.I.
Qed.
Lemma more_ok st f : (forall l m, (m <= length l)%nat -> okr stext l (st l m)) -> forall l m, (m <= length l)%nat ->
  exists ns l' m' t, more f st l m = (ns, l', m') /\ (m' <= length l')%nat /\ l = t ++ l' /\ forall w, ws w -> atext re_ok ns (t ++ w).
Proof.
  intro G. induction f as [|f IH]; intros l m H; cbn [more].
  { exists [], l, m, []. repeat split; [exact H|]. intros w W. apply a_nil, W. }
  pose proof (chr_ok (N.eqb 44) l m H) as R. destruct (chr (N.eqb 44) l m) as [[[c l1]|] m1].
  2:{ exists [], l, m1, []. repeat split; [exact R|]. intros w W. apply a_nil, W. }
  destruct R as (R1 & p & R2 & -> & R3). apply N.eqb_eq in R3. subst c. destruct (sp_ok l1 m1 R1) as (l2 & m2 & w1 & -> & L2 & A2 & W1).
  pose proof (G l2 m2 L2) as R. destruct (st l2 m2) as [[[e l3]|] m3].
  2:{ exists [], l, m3, []. split; [reflexivity|]. split; [cbn [okr] in R; rewrite R2, A2, !app_length; lia|]. split; [reflexivity|]. intros w W. apply a_nil, W. }
  destruct R as (R4 & t & R5 & u & w2 & -> & R6 & R7 & R8). destruct (IH l3 m3 R4) as (ns & l' & m' & ts & -> & I1 & I2 & I3).
  exists (e :: ns), l', m', (44 :: w1 ++ u ++ w2 ++ ts). split; [reflexivity|]. split; [exact I1|]. split.
  - rewrite R2, A2, R5, I2. cbn [app]. repeat (rewrite <- app_assoc; cbn [app]). reflexivity.
  - intros w W. cbn [app]. repeat (rewrite <- app_assoc; cbn [app]). apply a_cons; auto.
Qed.
Lemma statement_ok f : forall l m, (m <= length l)%nat -> okr stext l (statement re_ok f l m).
Proof.
  induction f as [|f IH]; intros l m H; cbn [statement]; [exact H|].
  pose proof (predicate_ok l m H) as R. destruct (predicate re_ok l m) as [[[e l1]|] m1].
  { destruct R as (R1 & t & R2 & R3). split; [exact R1|]. exists t. split; [exact R2|]. exists t, []. rewrite app_nil_r. split; [reflexivity|]. split; [apply e_pred, R3|]. split; [constructor|congruence]. }
  cbn [okr] in R.
  pose proof (call_ok [110; 111; 116] (args1 (statement re_ok f)) LNot l m1 R) as C. cbv beta in C.
  assert (C1 : okr stext l (call [110; 111; 116] (args1 (statement re_ok f)) LNot l m1)).
  { apply C. clear C l m1 R m H. intros l m H. unfold args1. pose proof (IH l m H) as R. destruct (statement re_ok f l m) as [[[e l1]|] m1]; [|exact R].
    destruct R as (R1 & t & R2 & u & w & -> & R3 & R4 & R5). destruct (sp_ok l1 m1 R1) as (l2 & m2 & w1 & -> & L2 & A2 & W1). cbn [okr]. split; [exact L2|].
    exists ((u ++ w) ++ w1). split; [rewrite R2, A2, <- !app_assoc; reflexivity|]. intros w2 w3 w4 W2 W3 W4.
    replace ((((u ++ w) ++ w1) ++ w4 ++ [41])) with (u ++ (w ++ w1 ++ w4) ++ [41]) by (rewrite <- !app_assoc; reflexivity). apply e_not; try assumption. apply ws_app; [assumption|apply ws_app; assumption]. }
  clear C. destruct (call [110; 111; 116] (args1 (statement re_ok f)) LNot l m1) as [[x|] m2]; [exact C1|]. cbn [okr] in C1.
  assert (CO : forall o to l m, opname o to -> (m <= length l)%nat -> okr stext l (call to (args f (statement re_ok f)) o l m)).
  { clear -IH. intros o to l m O H. apply call_ok; [exact H|]. clear l m H. intros l m H. unfold args. pose proof (IH l m H) as R. destruct (statement re_ok f l m) as [[[e l1]|] m1]; [|exact R].
    destruct R as (R1 & t & R2 & u & w & -> & R3 & R4 & R5). destruct (sp_ok l1 m1 R1) as (l2 & m2 & w1 & -> & L2 & A2 & W1).
    destruct (more_ok (statement re_ok f) f IH l2 m2 L2) as (ns & l' & m' & ts & -> & M1 & M2 & M3). cbn [okr]. split; [exact M1|].
    exists ((u ++ w) ++ w1 ++ ts). split; [rewrite R2, A2, M2, <- !app_assoc; reflexivity|]. intros w2 w3 w4 W2 W3 W4.
    replace ((((u ++ w) ++ w1 ++ ts) ++ w4 ++ [41])) with (u ++ (w ++ w1) ++ (ts ++ w4) ++ [41]) by (rewrite <- !app_assoc; reflexivity).
    apply e_op; try assumption; [apply M3, W4|apply ws_app; assumption]. }
  pose proof (CO LAnd _ l m2 n_and C1) as C2. destruct (call [97; 110; 100] (args f (statement re_ok f)) LAnd l m2) as [[x|] m3]; [exact C2|].
  apply CO; [apply n_or|exact C2].
Qed.

(** a run of expressions *)
Inductive run : node -> bytes -> node -> bytes -> Prop :=
| run_nil : forall root l, run root l root l
| run_cons : forall root e t l root' l', stext e t -> run e l root' l' -> run root (t ++ l) root' l'.
Lemma expressions_ok f : forall root l m root' m', (m <= length l)%nat -> expressions re_ok f root l m = (root', m') -> exists l', run root l root' l' /\ (m' <= length l')%nat.
Proof.
  induction f as [|f IH]; intros root l m root' m' H E; cbn [expressions] in E.
  - injection E as <- <-. exists l. split; [constructor|exact H].
  - pose proof (statement_ok (S (length l)) l m H) as R. destruct (statement re_ok (S (length l)) l m) as [[[e l1]|] m1].
    + destruct R as (R1 & t & R2 & R3). destruct (IH _ _ _ _ _ R1 E) as (l' & I1 & I2). exists l'. split; [rewrite R2; eapply run_cons; eassumption|exact I2].
    + injection E as <- <-. exists l. split; [constructor|exact R].
Qed.
Theorem parse_run input root : parse re_ok input = Some root -> exists l', run Null input root l'.
Proof.
  unfold parse. destruct (expressions re_ok (S (length input)) Null input (length input)) as [r m] eqn:E. destruct (Nat.eqb_spec m 0); [|discriminate]. intro X; injection X as <-.
  destruct (expressions_ok _ _ _ _ _ _ (le_n _) E) as (l' & R & _). exists l'; exact R.
Qed.
End P.
