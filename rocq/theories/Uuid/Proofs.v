From Coq Require Import ZArith NArith List Bool Lia ZifyBool ZifyNat ZifyN.
From Verif.Common Require Import Bits.
From Verif.Uuid Require Import Model Spec.
Import ListNotations.
Ltac Zify.zify_post_hook ::= Z.div_mod_to_equations.
Open Scope N_scope.

Lemma isxdigit_spec c : isxdigit c = true <-> (48 <= c <= 57 \/ 65 <= c <= 70 \/ 97 <= c <= 102).
Proof. unfold isxdigit. lia. Qed.

Lemma lut_digit c v : any_digit c v -> isxdigit c = true /\ lut c = v.
Proof.
  intros H. assert (isxdigit c = true) as -> by (apply isxdigit_spec; unfold any_digit, lower_digit, upper_digit in H; lia).
  split; [reflexivity|]. unfold any_digit, lower_digit, upper_digit, lut in *.
  destruct ((48 <=? c) && (c <=? 57)) eqn:E1; [lia|].
  destruct ((65 <=? c) && (c <=? 70)) eqn:E2; [lia|].
  destruct ((97 <=? c) && (c <=? 102)) eqn:E3; lia.
Qed.

Lemma xdigit_any c : isxdigit c = true -> any_digit c (lut c) /\ lut c < 16.
Proof.
  intros H. apply isxdigit_spec in H.
  assert (exists v, any_digit c v /\ v < 16) as (v & Hv & L).
  { unfold any_digit, lower_digit, upper_digit. destruct H as [H|[H|H]];
      [exists (c - 48)|exists (c - 55)|exists (c - 87)]; lia. }
  destruct (lut_digit c v Hv) as [_ ->]. auto.
Qed.

Lemma nib a b : a < 16 -> b < 16 -> N.lor (a * 16) b = 16 * a + b.
Proof. intros. change 16 with (2 ^ 4). rewrite lor_disjoint by (change (2 ^ 4) with 16; lia). lia. Qed.

(** ** The loop follows the shape *)
Fixpoint parse_shape (sh : list item) (s : list N) (out : list N) : outcome :=
  match sh with
  | [] => match s with [] => Fault | c :: _ => if c =? 0 then Accept out else Reject end
  | Dash :: sh =>
      match s with [] => Fault | c :: r => if c =? 45 then parse_shape sh r out else Reject end
  | Byte :: sh =>
      match s with
      | [] => Fault
      | a :: r => if isxdigit a then
                    match r with
                    | [] => Fault
                    | b :: r2 => if isxdigit b then parse_shape sh r2 (out ++ [N.lor (lut a * 16) (lut b)]) else Reject
                    end
                  else Reject
      end
  end.

Lemma parse_is_shape s : uuid_parse s = parse_shape uuid_shape s [].
Proof. reflexivity. Qed.

Lemma parse_shape_accept sh : forall s out u,
  parse_shape sh s out = Accept u ->
  exists t rest bs, s = t ++ 0 :: rest /\ u = out ++ bs /\ denotes any_digit sh t bs /\ bytes bs.
Proof.
  induction sh as [|[] sh IH]; intros s out u H; cbn [parse_shape] in H.
  - destruct s as [|c r]; [discriminate|]. destruct (N.eqb_spec c 0) as [->|]; [|discriminate].
    injection H as <-. exists [], r, []. rewrite app_nil_r. repeat split; constructor.
  - destruct s as [|a [|b r]]; [discriminate|destruct (isxdigit a); discriminate|].
    destruct (isxdigit a) eqn:A; [|discriminate]. destruct (isxdigit b) eqn:B; [|discriminate].
    apply IH in H as (t & rest & bs & -> & -> & D & HB).
    destruct (xdigit_any a A) as [DA LA]. destruct (xdigit_any b B) as [DB LB].
    exists (a :: b :: t), rest, (N.lor (lut a * 16) (lut b) :: bs).
    rewrite nib by assumption. split; [reflexivity|]. split; [now rewrite <- app_assoc|].
    split; [constructor; assumption|]. constructor; [lia|exact HB].
  - destruct s as [|c r]; [discriminate|]. destruct (N.eqb_spec c 45) as [->|]; [|discriminate].
    apply IH in H as (t & rest & bs & -> & -> & D & HB).
    exists (45 :: t), rest, bs. repeat split; try assumption. constructor; exact D.
Qed.

Lemma parse_shape_denotes sh t bs rest : denotes any_digit sh t bs -> forall out,
  parse_shape sh (t ++ 0 :: rest) out = Accept (out ++ bs).
Proof.
  induction 1 as [|a b x y sh t u Ha Hb D IH|sh t u D IH]; intros out; cbn [parse_shape app].
  - cbn. now rewrite app_nil_r.
  - destruct (lut_digit a x Ha) as [-> ->]. destruct (lut_digit b y Hb) as [-> ->].
    rewrite IH, nib by (unfold any_digit, lower_digit, upper_digit in *; lia).
    now rewrite <- app_assoc.
  - cbn. apply IH.
Qed.

Lemma denotes_nonzero (D : N -> N -> Prop) sh t u : (forall c v, D c v -> c <> 0) -> denotes D sh t u -> ~ In 0 t.
Proof.
  intros HD. induction 1 as [|a b x y sh t u Ha Hb H IH|sh t u H IH]; cbn [In]; [tauto| |].
  - intros [E|[E|I]]; [apply (HD a x Ha); auto|apply (HD b y Hb); auto|tauto].
  - intros [E|I]; [discriminate|tauto].
Qed.

Lemma any_nonzero c v : any_digit c v -> c <> 0.
Proof. unfold any_digit, lower_digit, upper_digit. lia. Qed.

Lemma split_nul (t t' r r' : list N) : ~ In 0 t -> ~ In 0 t' -> t ++ 0 :: r = t' ++ 0 :: r' -> t = t'.
Proof.
  revert t'. induction t as [|c t IH]; intros [|c' t'] H H' E; cbn in *.
  - reflexivity.
  - injection E as <- E. tauto.
  - injection E as -> E. tauto.
  - injection E as -> E. f_equal. apply IH; tauto.
Qed.

Lemma parse_exact t rest u : ~ In 0 t ->
  uuid_parse (t ++ 0 :: rest) = Accept u <-> denotes any_digit uuid_shape t u.
Proof.
  intros HN. rewrite parse_is_shape. split.
  - intros H. apply parse_shape_accept in H as (t' & rest' & bs & E & -> & D & _).
    apply split_nul in E; [|exact HN|eapply denotes_nonzero; [apply any_nonzero|exact D]].
    subst. exact D.
  - intros D. apply (parse_shape_denotes _ _ _ rest D []).
Qed.

Lemma parse_shape_nofault sh : forall s out, In 0 s -> parse_shape sh s out <> Fault.
Proof.
  induction sh as [|[] sh IH]; intros s out H; cbn [parse_shape].
  - destruct s as [|c r]; [destruct H|]. destruct (c =? 0); discriminate.
  - destruct s as [|a r]; [destruct H|]. destruct (isxdigit a) eqn:A; [|discriminate].
    destruct H as [->|H]; [discriminate|].
    destruct r as [|b r]; [destruct H|]. destruct (isxdigit b) eqn:B; [|discriminate].
    destruct H as [->|H]; [discriminate|]. apply IH. exact H.
  - destruct s as [|c r]; [destruct H|]. destruct (N.eqb_spec c 45) as [->|]; [|discriminate].
    destruct H as [H|H]; [discriminate|]. apply IH. exact H.
Qed.

Lemma parse_nofault s : In 0 s -> uuid_parse s <> Fault.
Proof. rewrite parse_is_shape. apply parse_shape_nofault. Qed.

(** ** Printing *)
Definition shape_from (i n : nat) : list item :=
  flat_map (fun k => if dash_after k then [Byte; Dash] else [Byte]) (seq i n).

Lemma land240 b : b < 256 -> N.shiftr (N.land b 240) 4 = b / 16.
Proof.
  intros H. apply N.eqb_eq. apply (all_below_spec 256 (fun b => N.shiftr (N.land b 240) 4 =? b / 16)); [vm_compute; reflexivity|exact H].
Qed.

Lemma unparse_denotes (D : N -> N -> Prop) cmap u : (forall v, v < 16 -> D (cm cmap v) v) -> bytes u ->
  forall i, exists t, unparse_loop cmap i u = t ++ [0] /\ denotes D (shape_from i (length u)) t u.
Proof.
  intros HC. induction 1 as [|b r Hb HB IH]; intros i.
  - exists []. split; [reflexivity|constructor].
  - destruct (IH (S i)) as (t & E & DT). cbn [unparse_loop length shape_from seq flat_map].
    fold (shape_from (S i) (length r)). rewrite E.
    rewrite land240 by exact Hb. change 15 with (N.ones 4). rewrite N.land_ones. change (2 ^ 4) with 16.
    assert (b = 16 * (b / 16) + b mod 16) as EB by lia.
    destruct (dash_after i).
    + exists (cm cmap (b / 16) :: cm cmap (b mod 16) :: 45 :: t). split; [reflexivity|].
      cbn [app]. rewrite EB at 3. constructor; [apply HC; lia|apply HC; lia|]. constructor. exact DT.
    + exists (cm cmap (b / 16) :: cm cmap (b mod 16) :: t). split; [reflexivity|].
      cbn [app]. rewrite EB at 3. constructor; [apply HC; lia|apply HC; lia|exact DT].
Qed.

Lemma lower_ok v : v < 16 -> lower_digit (cm reverse_lut v) v.
Proof.
  intros H. assert ((if v <? 10 then cm reverse_lut v =? 48 + v else cm reverse_lut v =? 87 + v) = true) as E.
  { apply (all_below_spec 16 (fun v => if v <? 10 then cm reverse_lut v =? 48 + v else cm reverse_lut v =? 87 + v)); [vm_compute; reflexivity|exact H]. }
  unfold lower_digit. destruct (N.ltb_spec v 10); apply N.eqb_eq in E; lia.
Qed.

Lemma upper_ok v : v < 16 -> upper_digit (cm reverse_uut v) v.
Proof.
  intros H. assert ((if v <? 10 then cm reverse_uut v =? 48 + v else cm reverse_uut v =? 55 + v) = true) as E.
  { apply (all_below_spec 16 (fun v => if v <? 10 then cm reverse_uut v =? 48 + v else cm reverse_uut v =? 55 + v)); [vm_compute; reflexivity|exact H]. }
  unfold upper_digit. destruct (N.ltb_spec v 10); apply N.eqb_eq in E; lia.
Qed.

Lemma denotes_mono (D D' : N -> N -> Prop) sh t u : (forall c v, D c v -> D' c v) ->
  denotes D sh t u -> denotes D' sh t u.
Proof. intros H. induction 1; constructor; auto. Qed.

Lemma denotes_len (D : N -> N -> Prop) sh t u : denotes D sh t u ->
  (length t = list_sum (map (fun i => match i with Byte => 2 | Dash => 1 end) sh))%nat.
Proof. induction 1; cbn [length map list_sum fold_right] in *; unfold list_sum in *; cbn [fold_right]; lia. Qed.

Lemma unparse_lower_spec u : length u = 16%nat -> bytes u ->
  exists t, unparse_lower u = t ++ [0] /\ length t = 36%nat /\ denotes lower_digit uuid_shape t u.
Proof.
  intros HL HB. destruct (unparse_denotes lower_digit reverse_lut u lower_ok HB 0) as (t & E & D).
  rewrite HL in D. change (shape_from 0 16) with uuid_shape in D.
  exists t. split; [exact E|]. split; [exact (denotes_len _ _ _ _ D)|exact D].
Qed.

Lemma unparse_upper_spec u : length u = 16%nat -> bytes u ->
  exists t, unparse_upper u = t ++ [0] /\ length t = 36%nat /\ denotes upper_digit uuid_shape t u.
Proof.
  intros HL HB. destruct (unparse_denotes upper_digit reverse_uut u upper_ok HB 0) as (t & E & D).
  rewrite HL in D. change (shape_from 0 16) with uuid_shape in D.
  exists t. split; [exact E|]. split; [exact (denotes_len _ _ _ _ D)|exact D].
Qed.

Lemma roundtrip u rest : length u = 16%nat -> bytes u ->
  uuid_parse (unparse_lower u ++ rest) = Accept u /\ uuid_parse (unparse_upper u ++ rest) = Accept u /\
  uuid_parse (unparse u ++ rest) = Accept u.
Proof.
  intros HL HB.
  assert (forall (D : N -> N -> Prop) t, (forall c v, D c v -> any_digit c v) -> denotes D uuid_shape t u ->
    uuid_parse ((t ++ [0]) ++ rest) = Accept u) as A.
  { intros D t HD H. rewrite <- app_assoc. cbn [app].
    rewrite parse_is_shape. apply (parse_shape_denotes _ _ _ rest (denotes_mono _ _ _ _ _ HD H) []). }
  destruct (unparse_lower_spec u HL HB) as (t & E & _ & D).
  destruct (unparse_upper_spec u HL HB) as (t' & E' & _ & D').
  change (unparse u) with (unparse_lower u). rewrite E, E'.
  split; [|split].
  - eapply A; [|exact D]. intros; left; assumption.
  - eapply A; [|exact D']. intros; right; assumption.
  - eapply A; [|exact D]. intros; left; assumption.
Qed.

Lemma digit_lower c v : any_digit c v -> lower_digit (lower c) v.
Proof.
  unfold any_digit, lower_digit, upper_digit, lower. intros H.
  destruct ((65 <=? c) && (c <=? 90)) eqn:E; lia.
Qed.
Lemma digit_upper c v : any_digit c v -> upper_digit (upper c) v.
Proof.
  unfold any_digit, lower_digit, upper_digit, upper. intros H.
  destruct ((97 <=? c) && (c <=? 122)) eqn:E; lia.
Qed.

Lemma denotes_map (D D' : N -> N -> Prop) f sh t u : f 45 = 45 -> (forall c v, D c v -> D' (f c) v) ->
  denotes D sh t u -> denotes D' sh (map f t) u.
Proof. intros F H. induction 1; cbn [map]; [constructor|constructor; auto|]. rewrite F. constructor; auto. Qed.

Lemma denotes_text_fun (D : N -> N -> Prop) sh : (forall c c' v, D c v -> D c' v -> c = c') -> (forall c v, D c v -> v < 16) ->
  forall t u, denotes D sh t u -> forall t', denotes D sh t' u -> t = t'.
Proof.
  intros HF HL t u H. induction H as [|a b x y sh t u Ha Hb H IH|sh t u H IH]; intros t' H'.
  - inversion H'. reflexivity.
  - inversion H'; subst.
    repeat match goal with Q : D _ ?v |- _ => lazymatch goal with _ : v < 16 |- _ => fail | _ => pose proof (HL _ _ Q) end end.
    assert (16 * x0 + y0 = 16 * x + y) by assumption. assert (x0 = x) by lia. assert (y0 = y) by lia. subst.
    f_equal; [eapply HF; eassumption|]. f_equal; [eapply HF; eassumption|]. apply IH. assumption.
  - inversion H'; subst. f_equal. apply IH. assumption.
Qed.

Lemma denotes_bytes sh t u : denotes any_digit sh t u -> bytes u /\ length u = length (filter (fun i => match i with Byte => true | Dash => false end) sh).
Proof.
  induction 1 as [|a b x y sh t u Ha Hb H [IH1 IH2]|sh t u H IH]; cbn [filter length].
  - split; [constructor|reflexivity].
  - split; [|now rewrite IH2]. constructor; [|exact IH1].
    unfold any_digit, lower_digit, upper_digit in *. lia.
  - exact IH.
Qed.

Lemma canonical t rest u : ~ In 0 t -> uuid_parse (t ++ 0 :: rest) = Accept u ->
  unparse_lower u = map lower t ++ [0] /\ unparse_upper u = map upper t ++ [0].
Proof.
  intros HN H. apply parse_exact in H; [|exact HN].
  destruct (denotes_bytes _ _ _ H) as [HB HL]. change (length (filter _ uuid_shape)) with 16%nat in HL.
  destruct (unparse_lower_spec u HL HB) as (tl & -> & _ & DL).
  destruct (unparse_upper_spec u HL HB) as (tu & -> & _ & DU).
  split; f_equal.
  - eapply denotes_text_fun; [..|exact DL|].
    + unfold lower_digit. intros. lia.
    + unfold lower_digit. intros. lia.
    + eapply denotes_map; [reflexivity| |exact H]. apply digit_lower.
  - eapply denotes_text_fun; [..|exact DU|].
    + unfold upper_digit. intros. lia.
    + unfold upper_digit. intros. lia.
    + eapply denotes_map; [reflexivity| |exact H]. apply digit_upper.
Qed.
