From Coq Require Import NArith ZArith List Lia Bool ZifyBool ZifyNat ZifyN Arith.
From Verif.Common Require Import Bits.
From Verif.B64 Require Import Model Spec.
Import ListNotations.
Ltac Zify.zify_post_hook ::= Z.div_mod_to_equations.
Open Scope N_scope.

Lemma group3_ind (P : list N -> Prop) :
  P [] -> (forall a, P [a]) -> (forall a b, P [a;b]) ->
  (forall a b c r, P r -> P (a::b::c::r)) -> forall l, P l.
Proof.
  intros H0 H1 H2 H3. fix IH 1. intros [|a [|b [|c r]]];
  [exact H0|apply H1|apply H2|apply H3, IH].
Qed.

(** ** Sweeps *)
Definition all_below2 (n m : N) (f : N -> N -> bool) : bool :=
  all_below n (fun x => all_below m (f x)).
Lemma all_below2_spec n m f : all_below2 n m f = true -> forall x y, x < n -> y < m -> f x y = true.
Proof.
  intros H x y Hx Hy. apply (all_below_spec m); [|exact Hy].
  apply (all_below_spec n (fun x => all_below m (f x))); assumption.
Qed.

Lemma letter_facts v : v < 64 ->
  enc64 v = letter v /\ table_dec (letter v) = v /\ classify (letter v) = SVal v /\
  blank (letter v) = false /\ fold_url (letter v) = letter v.
Proof.
  intros H.
  pose (f := fun v => (enc64 v =? letter v) && (table_dec (letter v) =? v) &&
     match classify (letter v) with SVal w => w =? v | _ => false end &&
     negb (blank (letter v)) && (fold_url (letter v) =? letter v)).
  assert (f v = true) as F.
  { apply (all_below_spec 64); [vm_compute; reflexivity|exact H]. }
  unfold f in F. repeat (apply andb_prop in F as [F ?]).
  destruct (classify (letter v)) eqn:E; try discriminate.
  repeat match goal with H : (_ =? _) = true |- _ => apply N.eqb_eq in H end.
  subst. repeat split; auto. now apply negb_true_iff.
Qed.

Lemma dec_bits1 x y : x < 64 -> y < 64 -> N.lor (u8 (N.shiftl x 2)) (N.shiftr y 4) = x * 4 + y / 16.
Proof.
  intros Hx Hy. apply N.eqb_eq.
  apply (all_below2_spec 64 64 (fun x y => N.lor (u8 (N.shiftl x 2)) (N.shiftr y 4) =? x * 4 + y / 16));
    [vm_compute; reflexivity|..]; assumption.
Qed.
Lemma dec_bits2 x y : x < 64 -> y < 64 -> N.lor (u8 (N.shiftl x 4)) (N.shiftr y 2) = (x mod 16) * 16 + y / 4.
Proof.
  intros Hx Hy. apply N.eqb_eq.
  apply (all_below2_spec 64 64 (fun x y => N.lor (u8 (N.shiftl x 4)) (N.shiftr y 2) =? (x mod 16) * 16 + y / 4));
    [vm_compute; reflexivity|..]; assumption.
Qed.
Lemma dec_bits3 x y : x < 64 -> y < 64 -> N.lor (u8 (N.shiftl x 6)) y = (x mod 4) * 64 + y.
Proof.
  intros Hx Hy. apply N.eqb_eq.
  apply (all_below2_spec 64 64 (fun x y => N.lor (u8 (N.shiftl x 6)) y =? (x mod 4) * 64 + y));
    [vm_compute; reflexivity|..]; assumption.
Qed.
Lemma slow_bits1 x y : x < 64 -> y < 64 ->
  u8 (N.lor (N.shiftl x 2) (N.shiftr (N.land y 48) 4)) = x * 4 + y / 16.
Proof.
  intros Hx Hy. apply N.eqb_eq.
  apply (all_below2_spec 64 64 (fun x y => u8 (N.lor (N.shiftl x 2) (N.shiftr (N.land y 48) 4)) =? x * 4 + y / 16));
    [vm_compute; reflexivity|..]; assumption.
Qed.
Lemma slow_bits2 x y : x < 64 -> y < 64 ->
  u8 (N.lor (N.shiftl (N.land x 15) 4) (N.shiftr (N.land y 60) 2)) = (x mod 16) * 16 + y / 4.
Proof.
  intros Hx Hy. apply N.eqb_eq.
  apply (all_below2_spec 64 64 (fun x y => u8 (N.lor (N.shiftl (N.land x 15) 4) (N.shiftr (N.land y 60) 2)) =? (x mod 16) * 16 + y / 4));
    [vm_compute; reflexivity|..]; assumption.
Qed.
Lemma slow_bits3 x y : x < 64 -> y < 64 ->
  u8 (N.lor (N.shiftl (N.land x 3) 6) (N.land y 63)) = (x mod 4) * 64 + y.
Proof.
  intros Hx Hy. apply N.eqb_eq.
  apply (all_below2_spec 64 64 (fun x y => u8 (N.lor (N.shiftl (N.land x 3) 6) (N.land y 63)) =? (x mod 4) * 64 + y));
    [vm_compute; reflexivity|..]; assumption.
Qed.
Lemma enc_c0 x : x < 256 -> N.land (u8 (N.shiftl x 4)) 48 = (x mod 4) * 16.
Proof.
  intros Hx. apply N.eqb_eq.
  apply (all_below_spec 256 (fun x => N.land (u8 (N.shiftl x 4)) 48 =? (x mod 4) * 16));
    [vm_compute; reflexivity|exact Hx].
Qed.
Lemma enc_c1 x : x < 256 -> N.land (u8 (N.shiftl x 2)) 60 = (x mod 16) * 4.
Proof.
  intros Hx. apply N.eqb_eq.
  apply (all_below_spec 256 (fun x => N.land (u8 (N.shiftl x 2)) 60 =? (x mod 16) * 4));
    [vm_compute; reflexivity|exact Hx].
Qed.
Lemma enc_c2 x : N.land x 63 = x mod 64.
Proof. apply (N.land_ones x 6). Qed.
Lemma enc_l1 x y : y < 256 -> N.lor ((x mod 4) * 16) (N.shiftr y 4) = (x mod 4) * 16 + y / 16.
Proof.
  intros Hy. rewrite shiftr_div. change (2 ^ 4) with 16.
  apply (lor_disjoint (x mod 4) (y / 16) 4). change (2 ^ 4) with 16. lia.
Qed.
Lemma enc_l2 x y : y < 256 -> N.lor ((x mod 16) * 4) (N.shiftr y 6) = (x mod 16) * 4 + y / 64.
Proof.
  intros Hy. rewrite shiftr_div. change (2 ^ 6) with 64.
  apply (lor_disjoint (x mod 16) (y / 64) 2). change (2 ^ 2) with 4. lia.
Qed.

(** ** The four indexes *)
Lemma six0 a b c : a < 256 -> b < 256 -> c < 256 -> six (a * 65536 + b * 256 + c) 0 = a / 4.
Proof. intros. unfold six. change (2 ^ (6 * (3 - 0))) with 262144. lia. Qed.
Lemma six1 a b c : a < 256 -> b < 256 -> c < 256 -> six (a * 65536 + b * 256 + c) 1 = (a mod 4) * 16 + b / 16.
Proof. intros. unfold six. change (2 ^ (6 * (3 - 1))) with 4096. lia. Qed.
Lemma six2 a b c : a < 256 -> b < 256 -> c < 256 -> six (a * 65536 + b * 256 + c) 2 = (b mod 16) * 4 + c / 64.
Proof. intros. unfold six. change (2 ^ (6 * (3 - 2))) with 64. lia. Qed.
Lemma six3 a b c : a < 256 -> b < 256 -> c < 256 -> six (a * 65536 + b * 256 + c) 3 = c mod 64.
Proof. intros. unfold six. change (2 ^ (6 * (3 - 3))) with 1. lia. Qed.

(** the text in terms of index values *)
Fixpoint rfc (l : list N) : list N :=
  match l with
  | [] => []
  | [a] => [letter (a / 4); letter (a mod 4 * 16); 61; 61]
  | [a; b] => [letter (a / 4); letter (a mod 4 * 16 + b / 16); letter (b mod 16 * 4); 61]
  | a :: b :: c :: r =>
      letter (a / 4) :: letter (a mod 4 * 16 + b / 16) :: letter (b mod 16 * 4 + c / 64)
      :: letter (c mod 64) :: rfc r
  end.

Ltac inv_bytes := repeat match goal with
  | H : bytes (_ :: _) |- _ => inversion H; clear H; subst
  | H : Forall _ (_ :: _) |- _ => inversion H; clear H; subst end; unfold is_byte in *.

Lemma rfc_eq l : bytes l -> rfc4648_base64 l = rfc l.
Proof.
  induction l as [|a|a b|a b c r IH] using group3_ind; intros HB; inv_bytes; cbn [rfc4648_base64 rfc].
  - reflexivity.
  - replace (a * 65536) with (a * 65536 + 0 * 256 + 0) by lia.
    rewrite six0, six1 by lia. change (0 / 16) with 0. rewrite N.add_0_r. reflexivity.
  - replace (a * 65536 + b * 256) with (a * 65536 + b * 256 + 0) by lia.
    rewrite six0, six1, six2 by lia. change (0 / 64) with 0. rewrite N.add_0_r. reflexivity.
  - rewrite six0, six1, six2, six3 by lia. now rewrite IH.
Qed.

(** ** Encoder *)
Lemma stream_app l1 : forall st l2,
  stream_encode st (l1 ++ l2) =
  let '(st1, o1) := stream_encode st l1 in
  let '(st2, o2) := stream_encode st1 l2 in (st2, o1 ++ o2).
Proof.
  induction l1 as [|c l1 IH]; intros st l2.
  - cbn. destruct (stream_encode st l2); reflexivity.
  - cbn [stream_encode app]. destruct (enc_byte st c) as [st1 o1]. rewrite IH.
    destruct (stream_encode st1 l1) as [st2 o2]. destruct (stream_encode st2 l2) as [st3 o3].
    now rewrite app_assoc.
Qed.

Lemma pieces_concat iov : forall st, encode_pieces st iov = stream_encode st (concat iov).
Proof.
  induction iov as [|p r IH]; intros st; [reflexivity|].
  cbn [encode_pieces concat]. rewrite stream_app.
  destruct (stream_encode st p) as [st1 o1]. now rewrite IH.
Qed.

Lemma iov_len_concat iov : iov_len iov = length (concat iov).
Proof. induction iov as [|p r IH]; [reflexivity|]. cbn. rewrite app_length. lia. Qed.

Lemma encodev_concat iov n : encodev iov n = encode (concat iov) n.
Proof.
  unfold encode, encodev. rewrite !pieces_concat, !iov_len_concat.
  cbn [concat]. now rewrite app_nil_r.
Qed.

Lemma enc64_letter v : v < 64 -> enc64 v = letter v.
Proof. apply letter_facts. Qed.

Lemma stream_rfc l : bytes l -> forall k,
  (let '(st, o) := stream_encode {| ebytes := 0; ecarry := k |} l in o ++ stream_final st) = rfc l.
Proof.
  induction l as [|a|a b|a b c r IH] using group3_ind; intros HB k; inv_bytes.
  - reflexivity.
  - cbn [stream_encode enc_byte ebytes ecarry app stream_final rfc].
    rewrite enc_c0 by assumption. rewrite shiftr_div. change (2 ^ 2) with 4.
    rewrite !enc64_letter by lia. reflexivity.
  - cbn [stream_encode enc_byte ebytes ecarry app stream_final rfc].
    rewrite enc_c0, enc_c1, enc_l1 by assumption. rewrite shiftr_div. change (2 ^ 2) with 4.
    rewrite !enc64_letter by lia. reflexivity.
  - cbn [stream_encode enc_byte ebytes ecarry rfc].
    match goal with |- context[stream_encode ?s r] => specialize (IH ltac:(assumption) (ecarry s)) end.
    cbn [ecarry] in IH. destruct (stream_encode _ r) as [st o]. rewrite <- IH.
    rewrite enc_c0, enc_c1, enc_l1, enc_l2, enc_c2 by assumption.
    rewrite shiftr_div. change (2 ^ 2) with 4.
    rewrite !enc64_letter by lia. reflexivity.
Qed.

Lemma rfc_length l : length (rfc l) = encode_len (length l).
Proof.
  unfold encode_len.
  induction l as [|a|a b|a b c r IH] using group3_ind; try reflexivity.
  cbn [rfc length]. rewrite IH. change (4 * ?x)%nat with (Nat.mul 4 x) in *.
  replace (S (S (S (length r))) + 2)%nat with (length r + 2 + 1 * 3)%nat by lia.
  rewrite Nat.div_add by lia. lia.
Qed.

Lemma encode_text l n : bytes l -> (encode_len (length l) <= n)%nat -> encode l n = rfc l.
Proof.
  intros HB Hn. unfold encode, encodev. rewrite iov_len_concat. cbn [concat].
  rewrite app_nil_r. destruct (Nat.ltb_spec n (encode_len (length l))); [lia|].
  rewrite pieces_concat. cbn [concat]. rewrite app_nil_r. apply stream_rfc. exact HB.
Qed.

Lemma encode_spec l n : bytes l -> (encode_len (length l) <= n)%nat ->
  encode l n = rfc4648_base64 l /\ length (encode l n) = encode_len (length l).
Proof.
  intros HB Hn. rewrite encode_text by assumption. rewrite rfc_length, rfc_eq by assumption. auto.
Qed.


Lemma stream_len l : forall k, 
  (let '(st, o) := stream_encode {| ebytes := 0; ecarry := k |} l in length (o ++ stream_final st))
   = encode_len (length l).
Proof.
  unfold encode_len.
  induction l as [|a|a b|a b c r IH] using group3_ind; intros k; try reflexivity.
  cbn [stream_encode enc_byte ebytes ecarry].
  match goal with |- context[stream_encode ?s r] => specialize (IH (ecarry s)) end.
  cbn [ecarry] in IH. destruct (stream_encode _ r) as [st o].
  cbn [app length] in *. rewrite IH.
  replace (S (S (S (length r))) + 2)%nat with (length r + 2 + 1 * 3)%nat by lia.
  rewrite Nat.div_add by lia. lia.
Qed.

Lemma encode_bound l n : (length (encode l n) <= n)%nat.
Proof.
  unfold encode, encodev. rewrite iov_len_concat, pieces_concat. cbn [concat]. rewrite app_nil_r.
  destruct (Nat.ltb_spec n (encode_len (length l))); [cbn; lia|].
  pose proof (stream_len l 0) as H1. fold enc_init in H1. 
  change {| ebytes := 0; ecarry := 0 |} with enc_init in H1.
  destruct (stream_encode enc_init l) as [st o]. lia.
Qed.

(** ** Fast decoder on its own text *)
Lemma table_letter v : v < 64 -> table_dec (letter v) = v /\ (254 <=? table_dec (letter v)) = false.
Proof.
  intros H. destruct (letter_facts v H) as (_ & E & _). rewrite E. split; [reflexivity|].
  apply N.leb_gt. lia.
Qed.

Lemma fast0 v r k : v < 64 -> fast_loop (letter v :: r) 0 k = fast_loop r 1 (u8 (N.shiftl v 2)).
Proof. intros H. cbn [fast_loop]. destruct (table_letter v H) as [E ->]. now rewrite E. Qed.
Lemma fast1 v r k : v < 64 -> fast_loop (letter v :: r) 1 k =
  let '(rt, z, o) := fast_loop r 2 (u8 (N.shiftl v 4)) in (rt, z, N.lor k (N.shiftr v 4) :: o).
Proof. intros H. cbn [fast_loop]. destruct (table_letter v H) as [E ->]. now rewrite E. Qed.
Lemma fast2 v r k : v < 64 -> fast_loop (letter v :: r) 2 k =
  let '(rt, z, o) := fast_loop r 3 (u8 (N.shiftl v 6)) in (rt, z, N.lor k (N.shiftr v 2) :: o).
Proof. intros H. cbn [fast_loop]. destruct (table_letter v H) as [E ->]. now rewrite E. Qed.
Lemma fast3 v r k : v < 64 -> fast_loop (letter v :: r) 3 k =
  let '(rt, z, o) := fast_loop r 0 0 in (rt, z, N.lor k v :: o).
Proof. intros H. cbn [fast_loop]. destruct (table_letter v H) as [E ->]. now rewrite E. Qed.

Lemma fast_rfc l : bytes l -> forall k, fast_loop (rfc l) 0 k = (true, true, l).
Proof.
  induction l as [|a|a b|a b c r IH] using group3_ind; intros HB k; inv_bytes; cbn [rfc].
  - reflexivity.
  - rewrite fast0, fast1 by lia. cbn -[N.lor N.shiftl N.shiftr N.modulo N.div].
    rewrite dec_bits1 by lia. repeat f_equal. lia.
  - rewrite fast0, fast1, fast2 by lia. cbn -[N.lor N.shiftl N.shiftr N.modulo N.div].
    rewrite dec_bits1, dec_bits2 by lia.
    replace (a / 4 * 4 + (a mod 4 * 16 + b / 16) / 16) with a by lia.
    replace ((a mod 4 * 16 + b / 16) mod 16 * 16 + b mod 16 * 4 / 4) with b by lia. reflexivity.
  - rewrite fast0, fast1, fast2, fast3 by lia. rewrite IH by assumption.
    rewrite dec_bits1, dec_bits2, dec_bits3 by lia.
    replace (a / 4 * 4 + (a mod 4 * 16 + b / 16) / 16) with a by lia.
    replace ((a mod 4 * 16 + b / 16) mod 16 * 16 + (b mod 16 * 4 + c / 64) / 4) with b by lia.
    replace ((b mod 16 * 4 + c / 64) mod 4 * 64 + c mod 64) with c by lia. reflexivity.
Qed.

(** ** Slow decoder on its own text *)
Lemma slow_val v r b ib ob : v < 64 -> slow_loop (letter v :: r) b ib ob =
  let '(b', ib', o) := push b ib ob v in o ++ slow_loop r b' ib' ob.
Proof. intros H. cbn [slow_loop]. destruct (letter_facts v H) as (_ & _ & -> & _). reflexivity. Qed.

Lemma slow_rfc l : bytes l -> forall b, slow_loop (rfc l) b 0 3 = map Some l.
Proof.
  induction l as [|a|a b|a b c r IH] using group3_ind; intros HB [[[b0 b1] b2] b3]; inv_bytes; cbn [rfc].
  - reflexivity.
  - rewrite !slow_val by lia. cbn [push set_in Nat.eqb app]. rewrite !slow_val by lia.
    cbn [push set_in Nat.eqb app].
    cbn -[N.lor N.land N.shiftl N.shiftr N.modulo N.div u8].
    rewrite slow_bits1 by lia. cbn [map]. repeat f_equal. lia.
  - do 3 (rewrite slow_val by lia; cbn [push set_in Nat.eqb app]).
    cbn -[N.lor N.land N.shiftl N.shiftr N.modulo N.div u8].
    rewrite slow_bits1, slow_bits2 by lia.
    replace (a / 4 * 4 + (a mod 4 * 16 + b / 16) / 16) with a by lia.
    replace ((a mod 4 * 16 + b / 16) mod 16 * 16 + b mod 16 * 4 / 4) with b by lia. reflexivity.
  - do 4 (rewrite slow_val by lia; cbn [push set_in Nat.eqb app]).
    cbn [slow_out firstn op2 app].
    rewrite slow_bits1, slow_bits2, slow_bits3 by lia.
    rewrite IH by assumption.
    replace (a / 4 * 4 + (a mod 4 * 16 + b / 16) / 16) with a by lia.
    replace ((a mod 4 * 16 + b / 16) mod 16 * 16 + (b mod 16 * 4 + c / 64) / 4) with b by lia.
    replace ((b mod 16 * 4 + c / 64) mod 4 * 64 + c mod 64) with c by lia. reflexivity.
Qed.

(** ** Insignificant characters *)
Lemma blank_skip c : blank c = true -> classify c = SSkip /\ table_dec c = 255.
Proof.
  intros H.
  pose (f := fun c => negb (blank c) || (match classify c with SSkip => true | _ => false end && (table_dec c =? 255))).
  assert (f c = true) as F.
  { apply (all_below_spec 33); [vm_compute; reflexivity|]. unfold blank in H. lia. }
  unfold f in F. rewrite H in F. cbn [negb orb] in F.
  apply andb_prop in F as [F1 F2]. apply N.eqb_eq in F2.
  destruct (classify c); try discriminate. auto.
Qed.

Lemma classify_fold c : classify (fold_url c) = classify c.
Proof.
  unfold fold_url. destruct (N.eqb_spec c 45) as [->|]; [reflexivity|].
  destruct (N.eqb_spec c 95) as [->|]; reflexivity.
Qed.

Lemma slow_significant txt : forall b ib ob,
  slow_loop (significant txt) b ib ob = slow_loop txt b ib ob.
Proof.
  unfold significant. induction txt as [|c r IH]; intros b ib ob; [reflexivity|].
  cbn [filter]. destruct (blank c) eqn:B; cbn [negb].
  - destruct (blank_skip c B) as [E _]. rewrite IH. cbn [slow_loop]. now rewrite E.
  - cbn [map slow_loop]. rewrite classify_fold.
    destruct (classify c); auto.
    + destruct (push b ib ob v) as [[b' ib'] o]. now rewrite IH.
    + destruct (Nat.eqb ib 0); [reflexivity|].
      destruct (push b 3 (pad_ob ib) 255) as [[b' ib'] o]. now rewrite IH.
Qed.

Lemma fast_ok_table src : forall b k o z, fast_loop src b k = (true, z, o) ->
  Forall (fun c => table_dec c <> 255) src.
Proof.
  induction src as [|c r IH]; intros b k o z H; [constructor|].
  cbn [fast_loop] in H.
  destruct b as [|[|[|b]]].
  - destruct (N.leb_spec 254 (table_dec c)); [discriminate|].
    constructor; [lia|]. eapply IH; eauto.
  - destruct (N.leb_spec 254 (table_dec c)); [discriminate|].
    destruct (fast_loop r 2 _) as [[rt z'] o'] eqn:E. injection H as -> -> <-.
    constructor; [lia|]. eapply IH; eauto.
  - destruct (N.leb_spec 254 (table_dec c)).
    + destruct (N.eqb_spec (table_dec c) 254) as [E|]; [|discriminate].
      destruct r as [|c2 r2]; [constructor; [lia|constructor]|].
      injection H as H _ _. apply andb_prop in H as [H1 H2]. apply N.eqb_eq in H1.
      destruct r2; [|discriminate]. repeat constructor; lia.
    + destruct (fast_loop r 3 _) as [[rt z'] o'] eqn:E. injection H as -> -> <-.
      constructor; [lia|]. eapply IH; eauto.
  - destruct (N.leb_spec 254 (table_dec c)).
    + injection H as H _ _. apply andb_prop in H as [H1 H2]. apply N.eqb_eq in H1.
      destruct r; [|discriminate]. repeat constructor; lia.
    + destruct (fast_loop r 0 0) as [[rt z'] o'] eqn:E. injection H as -> -> <-.
      constructor; [lia|]. eapply IH; eauto.
Qed.

Lemma table_plain c : table_dec c <> 255 -> blank c = false /\ fold_url c = c.
Proof.
  intros H. split.
  - destruct (blank c) eqn:B; [|reflexivity]. apply blank_skip in B as [_ B]. contradiction.
  - unfold fold_url. destruct (N.eqb_spec c 45) as [->|]; [elim H; reflexivity|].
    destruct (N.eqb_spec c 95) as [->|]; [elim H; reflexivity|reflexivity].
Qed.

Lemma significant_plain src : Forall (fun c => table_dec c <> 255) src -> significant src = src.
Proof.
  unfold significant. induction 1 as [|c r Hc HF IH]; [reflexivity|].
  apply table_plain in Hc as [B E]. cbn [filter]. rewrite B. cbn [negb map]. now rewrite E, IH.
Qed.

Lemma rfc_significant l : bytes l -> significant (rfc l) = rfc l.
Proof. intros HB. apply significant_plain. eapply fast_ok_table, (fast_rfc l HB 0). Qed.

Lemma decode_text l txt m : bytes l -> significant txt = rfc l -> size_ok txt m = true ->
  out (decode txt m) = map Some l /\ ret (decode txt m) = length l.
Proof.
  intros HB HS HZ. unfold decode, fast_decode. rewrite HZ.
  destruct (fast_loop txt 0 0) as [[rt z] o] eqn:E.
  destruct rt.
  - pose proof (significant_plain txt (fast_ok_table txt _ _ _ _ E)) as HP.
    rewrite HP in HS. subst txt. rewrite fast_rfc in E by exact HB.
    injection E as <- <-. cbn. auto.
  - cbn [andb out ret]. unfold slow_decode. rewrite <- slow_significant, HS, slow_rfc by exact HB.
    now rewrite map_length.
Qed.

(** ** The size check *)
Lemma last2 (src : list N) : (length src <= 1)%nat \/ exists pre c2 c1, src = pre ++ [c2; c1].
Proof.
  induction src as [|a src IH] using rev_ind; [left; cbn; lia|].
  clear IH. induction src as [|b src _] using rev_ind; [left; cbn; lia|].
  right. exists src, b, a. now rewrite <- app_assoc.
Qed.

Lemma nth_last2 (pre : list N) c2 c1 :
  nth (length (pre ++ [c2; c1]) - 2) (pre ++ [c2; c1]) 0 = c2 /\
  nth (length (pre ++ [c2; c1]) - 1) (pre ++ [c2; c1]) 0 = c1.
Proof.
  rewrite app_length. cbn [length]. split.
  - rewrite app_nth2 by lia. replace (length pre + 2 - 2 - length pre)%nat with 0%nat by lia. reflexivity.
  - rewrite app_nth2 by lia. replace (length pre + 2 - 1 - length pre)%nat with 1%nat by lia. reflexivity.
Qed.

Definition allowance (c2 c1 : N) : N := if c2 =? 61 then 2 else if c1 =? 61 then 1 else 0.

Lemma wsub_small a b : b <= a -> a < 2 ^ 64 -> wsub a b = a - b.
Proof.
  intros H1 H2. unfold wsub. replace (a + 2 ^ 64 - b) with (a - b + 1 * 2 ^ 64) by lia.
  rewrite N.mod_add by lia. apply N.mod_small. lia.
Qed.

Lemma wsub_ge a b : b <= 2 ^ 64 -> a < 2 ^ 64 -> b <= a \/ wsub a b = a + 2 ^ 64 - b.
Proof.
  intros H1 H2. destruct (N.le_gt_cases b a); [auto|right]. unfold wsub. apply N.mod_small. lia.
Qed.

Lemma max_len_ge n : (1 <= n)%nat -> (3 <= max_decode_len n)%nat.
Proof. intros H. unfold max_decode_len. assert (1 <= (n + 3) / 4)%nat by (apply Nat.div_le_lower_bound; lia). lia. Qed.

Lemma size_ok_last2 pre c2 c1 m :
  let src := pre ++ [c2; c1] in
  N.of_nat (max_decode_len (length src)) < 2 ^ 64 ->
  size_ok src m = true <-> N.of_nat (max_decode_len (length src)) <= m + allowance c2 c1.
Proof.
  intros src HN.
  assert (2 <= length src)%nat as HL by (unfold src; rewrite app_length; cbn; lia).
  pose proof (max_len_ge (length src) ltac:(lia)) as H3.
  unfold size_ok. destruct (nth_last2 pre c2 c1) as [E2 E1]. fold src in E2, E1.
  rewrite E2, E1. rewrite !wsub_small by lia.
  assert ((1 <? length src)%nat = true) as -> by (apply Nat.ltb_lt; lia).
  unfold allowance. cbn [andb].
  destruct (N.eqb_spec c2 61), (N.eqb_spec c1 61); cbn [negb andb];
    destruct (N.ltb_spec m (N.of_nat (max_decode_len (length src)) - 2)); 
    repeat match goal with |- context[?a <? ?b] => destruct (N.ltb_spec a b) end; cbn [negb];
    split; intros; try lia; try discriminate; reflexivity.
Qed.

Lemma size_ok_ge txt m : N.of_nat (max_decode_len (length txt)) <= m -> m < 2 ^ 64 ->
  txt <> [] -> size_ok txt m = true.
Proof.
  intros H Hm Hne. destruct (last2 txt) as [Hl|(pre & c2 & c1 & ->)].
  - destruct txt as [|c [|d r]]; cbn [length] in Hl; [contradiction| |lia].
    unfold size_ok. cbn [length Nat.ltb Nat.leb andb].
    change (max_decode_len 1) with 3%nat in *. cbn [length] in H. change (max_decode_len 1) with 3%nat in H.
    rewrite wsub_small by lia. destruct (N.ltb_spec m (N.of_nat 3 - 2)); [lia|reflexivity].
  - apply size_ok_last2; [lia|]. unfold allowance. lia.
Qed.

Lemma letter_not_pad v : v < 64 -> letter v <> 61.
Proof.
  intros H E. destruct (letter_facts v H) as (_ & T & _). rewrite E in T.
  change (table_dec 61) with 254 in T. lia.
Qed.

Lemma rfc_tail l : bytes l -> l <> [] -> exists pre c2 c1, rfc l = pre ++ [c2; c1] /\
  (length l + N.to_nat (allowance c2 c1) = max_decode_len (length (rfc l)))%nat.
Proof.
  assert (forall n, (max_decode_len (4 + n) = 3 + max_decode_len n)%nat) as M4.
  { intros n. unfold max_decode_len. replace (4 + n + 3)%nat with (n + 3 + 1 * 4)%nat by lia.
    rewrite Nat.div_add by lia. lia. }
  induction l as [|a|a b|a b c r IH] using group3_ind; intros HB Hne; inv_bytes; cbn [rfc].
  - contradiction.
  - exists [letter (a / 4); letter (a mod 4 * 16)], 61, 61. split; reflexivity.
  - exists [letter (a / 4); letter (a mod 4 * 16 + b / 16)], (letter (b mod 16 * 4)), 61. split; [reflexivity|].
    unfold allowance. destruct (N.eqb_spec (letter (b mod 16 * 4)) 61) as [E|_]; [|reflexivity].
    apply letter_not_pad in E; [contradiction|lia].
  - destruct r as [|d r].
    + exists [letter (a / 4); letter (a mod 4 * 16 + b / 16)], (letter (b mod 16 * 4 + c / 64)), (letter (c mod 64)).
      split; [reflexivity|]. unfold allowance.
      destruct (N.eqb_spec (letter (b mod 16 * 4 + c / 64)) 61) as [E|_];
        [apply letter_not_pad in E; [contradiction|lia]|].
      destruct (N.eqb_spec (letter (c mod 64)) 61) as [E|_]; [|reflexivity].
      apply letter_not_pad in E; [contradiction|lia].
    + destruct IH as (pre & c2 & c1 & E & L); [assumption|discriminate|].
      exists (letter (a / 4) :: letter (a mod 4 * 16 + b / 16) :: letter (b mod 16 * 4 + c / 64) :: letter (c mod 64) :: pre), c2, c1.
      split; [now rewrite E|].
      cbn [length] in *. pose proof (M4 (length (rfc (d :: r)))) as M. cbn [Nat.add] in M. rewrite M. lia.
Qed.

Lemma roundtrip_sig l txt n m : bytes l ->
  (encode_len (length l) <= n)%nat ->
  significant txt = encode l n ->
  N.of_nat (max_decode_len (length txt)) <= m -> m < 2 ^ 64 ->
  out (decode txt m) = map Some l /\ ret (decode txt m) = length l.
Proof.
  intros HB Hn HS Hm Hm2. rewrite encode_text in HS by assumption.
  destruct txt as [|c r].
  - destruct l as [|a [|b [|c r]]]; [|discriminate..].
    unfold decode. destruct (size_ok [] m); cbn; auto.
  - apply decode_text; [exact HB|exact HS|]. apply size_ok_ge; [exact Hm|exact Hm2|discriminate].
Qed.

Lemma roundtrip_exact l n m : bytes l ->
  (encode_len (length l) <= n)%nat ->
  N.of_nat (length l) <= m -> N.of_nat (max_decode_len (length (encode l n))) < 2 ^ 64 ->
  out (decode (encode l n) m) = map Some l /\ ret (decode (encode l n) m) = length l.
Proof.
  intros HB Hn Hm Hs. rewrite encode_text in * by assumption.
  destruct l as [|a l'].
  - unfold decode. destruct (size_ok (rfc []) m); cbn; auto.
  - destruct (rfc_tail (a :: l') HB ltac:(discriminate)) as (pre & c2 & c1 & E & L).
    apply decode_text; [exact HB|apply rfc_significant; exact HB|].
    rewrite E in *. apply size_ok_last2; [exact Hs|]. lia.
Qed.

(** ** Bounds *)
Definition emitted (b : nat) : nat := match b with 0 | 1 => 0 | 2 => 1 | _ => 2 end%nat.

Lemma fast_count src : forall b k, (b <= 3)%nat ->
  (4 * (length (snd (fast_loop src b k)) + emitted b) <= 3 * (length src + b))%nat.
Proof.
  induction src as [|c r IH]; intros b k Hb.
  - cbn [fast_loop snd length]. destruct b as [|[|[|[|b]]]]; cbn; lia.
  - cbn [fast_loop]. destruct b as [|[|[|[|b]]]]; [..|lia].
    + destruct (254 <=? table_dec c); [cbn; lia|].
      specialize (IH 1%nat (u8 (N.shiftl (table_dec c) 2)) ltac:(lia)). cbn [emitted length] in *. lia.
    + destruct (254 <=? table_dec c); [cbn; lia|].
      specialize (IH 2%nat (u8 (N.shiftl (table_dec c) 4)) ltac:(lia)).
      destruct (fast_loop r 2 _) as [[rt z] o]. cbn [emitted length snd] in *. lia.
    + destruct (254 <=? table_dec c).
      * destruct (table_dec c =? 254); [destruct r|]; cbn; lia.
      * specialize (IH 3%nat (u8 (N.shiftl (table_dec c) 6)) ltac:(lia)).
        destruct (fast_loop r 3 _) as [[rt z] o]. cbn [emitted length snd] in *. lia.
    + destruct (254 <=? table_dec c); [cbn; lia|].
      specialize (IH 0%nat 0 ltac:(lia)).
      destruct (fast_loop r 0 0) as [[rt z] o]. cbn [emitted length snd] in *. lia.
Qed.

Lemma fast_pad (pre post : list N) : forall b k, (b <= 3)%nat ->
  (4 * (length (snd (fast_loop (pre ++ 61%N :: post) b k)) + emitted b) <= 3 * (length pre + b))%nat.
Proof.
  induction pre as [|c r IH]; intros b k Hb.
  - cbn [app fast_loop]. change (table_dec 61) with 254. cbn [N.leb N.eqb N.compare Pos.compare Pos.compare_cont Pos.eqb].
    destruct b as [|[|[|[|b]]]]; [..|lia]; [| |destruct post|]; cbn; lia.
  - cbn [app fast_loop]. destruct b as [|[|[|[|b]]]]; [..|lia].
    + destruct (254 <=? table_dec c); [cbn; lia|].
      specialize (IH 1%nat (u8 (N.shiftl (table_dec c) 2)) ltac:(lia)). cbn [emitted length] in *. lia.
    + destruct (254 <=? table_dec c); [cbn; lia|].
      specialize (IH 2%nat (u8 (N.shiftl (table_dec c) 4)) ltac:(lia)).
      destruct (fast_loop _ 2 _) as [[rt z] o]. cbn [emitted length snd] in *. lia.
    + destruct (254 <=? table_dec c).
      * destruct (table_dec c =? 254); [destruct (r ++ 61 :: post)|]; cbn; lia.
      * specialize (IH 3%nat (u8 (N.shiftl (table_dec c) 6)) ltac:(lia)).
        destruct (fast_loop _ 3 _) as [[rt z] o]. cbn [emitted length snd] in *. lia.
    + destruct (254 <=? table_dec c); [cbn; lia|].
      specialize (IH 0%nat 0 ltac:(lia)).
      destruct (fast_loop _ 0 0) as [[rt z] o]. cbn [emitted length snd] in *. lia.
Qed.

Lemma slow_out_len b : length (slow_out b) = 3%nat.
Proof. destruct b as [[[? ?] ?] ?]. reflexivity. Qed.

Lemma push_spec b ib ob v : (ib <= 3)%nat -> (ob <= 3)%nat ->
  exists b' o, push b ib ob v = (b', (if Nat.eqb ib 3 then 0 else S ib)%nat, o) /\
    length o = (if Nat.eqb ib 3 then ob else 0)%nat.
Proof.
  intros Hi Ho. unfold push. replace (Nat.eqb (S ib) 4) with (Nat.eqb ib 3) by reflexivity.
  destruct (Nat.eqb ib 3) eqn:E.
  - eexists _, _. split; [reflexivity|]. rewrite firstn_length, slow_out_len. lia.
  - eexists _, _. split; reflexivity.
Qed.

Lemma pad_ob_le ib : (pad_ob ib <= 2)%nat.
Proof. unfold pad_ob. destruct (_ || _)%bool; lia. Qed.

Lemma slow_count src : forall b ib ob, (ib <= 3)%nat -> (ob <= 3)%nat ->
  (4 * length (slow_loop src b ib ob) <= 3 * (length src + ib))%nat.
Proof.
  induction src as [|c r IH]; intros b ib ob Hi Ho; [cbn; lia|].
  cbn [slow_loop length]. destruct (classify c).
  - destruct (push_spec b ib ob v Hi Ho) as (b' & o & -> & L). rewrite app_length, L.
    destruct (Nat.eqb_spec ib 3) as [->|].
    + specialize (IH b' 0%nat ob ltac:(lia) Ho). lia.
    + specialize (IH b' (S ib) ob ltac:(lia) Ho). lia.
  - destruct (Nat.eqb_spec ib 0); [cbn; lia|].
    pose proof (pad_ob_le ib) as HP.
    destruct (push_spec b 3 (pad_ob ib) 255 ltac:(lia) ltac:(lia)) as (b' & o & -> & L).
    rewrite app_length, L. cbn [Nat.eqb].
    specialize (IH b' 0%nat (pad_ob ib) ltac:(lia) ltac:(lia)).
    unfold pad_ob in *. destruct (Nat.eqb_spec ib 1); [cbn [orb] in *; lia|].
    destruct (Nat.eqb_spec ib 2); cbn [orb] in *; lia.
  - specialize (IH b ib ob Hi Ho). lia.
  - cbn; lia.
Qed.

Lemma slow_pad (pre post : list N) : (length post <= 1)%nat -> forall b ib ob, (ib <= 3)%nat -> (ob <= 3)%nat ->
  (4 * length (slow_loop (pre ++ 61%N :: post) b ib ob) <= 3 * (length pre + ib) + 1)%nat.
Proof.
  intros HPo. induction pre as [|c r IH]; intros b ib ob Hi Ho.
  - cbn [app slow_loop length]. change (classify 61) with SPad. cbv iota.
    destruct (Nat.eqb_spec ib 0); [cbn; lia|].
    pose proof (pad_ob_le ib) as HP.
    destruct (push_spec b 3 (pad_ob ib) 255 ltac:(lia) ltac:(lia)) as (b' & o & -> & L).
    rewrite app_length, L. cbn [Nat.eqb].
    pose proof (slow_count post b' 0%nat (pad_ob ib) ltac:(lia) ltac:(lia)) as HS.
    unfold pad_ob in *. destruct (Nat.eqb_spec ib 1); [cbn [orb] in *; lia|].
    destruct (Nat.eqb_spec ib 2); cbn [orb] in *; lia.
  - cbn [app slow_loop length]. destruct (classify c).
    + destruct (push_spec b ib ob v Hi Ho) as (b' & o & -> & L). rewrite app_length, L.
      destruct (Nat.eqb_spec ib 3) as [->|].
      * specialize (IH b' 0%nat ob ltac:(lia) Ho). lia.
      * specialize (IH b' (S ib) ob ltac:(lia) Ho). lia.
    + destruct (Nat.eqb_spec ib 0); [cbn; lia|].
      pose proof (pad_ob_le ib) as HP.
      destruct (push_spec b 3 (pad_ob ib) 255 ltac:(lia) ltac:(lia)) as (b' & o & -> & L).
      rewrite app_length, L. cbn [Nat.eqb].
      specialize (IH b' 0%nat (pad_ob ib) ltac:(lia) ltac:(lia)).
      unfold pad_ob in *. destruct (Nat.eqb_spec ib 1); [cbn [orb] in *; lia|].
      destruct (Nat.eqb_spec ib 2); cbn [orb] in *; lia.
    + specialize (IH b ib ob Hi Ho). lia.
    + cbn; lia.
Qed.

Lemma needed_eq n : (4 * max_decode_len n = 3 * n + 9 - 3 * ((n + 3) mod 4))%nat.
Proof. unfold max_decode_len. pose proof (Nat.div_mod (n + 3) 4 ltac:(lia)).
  pose proof (Nat.mod_upper_bound (n + 3) 4 ltac:(lia)). lia. Qed.

Lemma count_cases src b ib ob k : (ib <= 3)%nat -> (ob <= 3)%nat -> ib = 0%nat ->
  forall pre c2 c1, src = pre ++ [c2; c1] ->
  let A := N.to_nat (allowance c2 c1) in
  (length (snd (fast_loop src 0 k)) + A <= max_decode_len (length src))%nat /\
  (length (slow_loop src b ib ob) + A <= max_decode_len (length src))%nat.
Proof.
  intros Hi Ho -> pre c2 c1 E A.
  pose proof (needed_eq (length src)) as HN.
  pose proof (Nat.mod_upper_bound (length src + 3) 4 ltac:(lia)) as HM.
  pose proof (Nat.div_mod (length src + 3) 4 ltac:(lia)) as HD.
  assert (length src = length pre + 2)%nat as HL by (rewrite E, app_length; cbn; lia).
  unfold A, allowance. destruct (N.eqb_spec c2 61) as [->|].
  - pose proof (fast_pad pre [c1] 0 k ltac:(lia)) as F.
    pose proof (slow_pad pre [c1] ltac:(cbn; lia) b 0 ob ltac:(lia) ltac:(lia)) as S.
    rewrite <- E in F, S. cbn [emitted] in F. change (N.to_nat 2) with 2%nat.
    unfold max_decode_len in *. lia.
  - destruct (N.eqb_spec c1 61) as [->|].
    + assert (src = (pre ++ [c2]) ++ [61]) as E' by (rewrite E, <- app_assoc; reflexivity).
      pose proof (fast_pad (pre ++ [c2]) [] 0 k ltac:(lia)) as F.
      pose proof (slow_pad (pre ++ [c2]) [] ltac:(cbn; lia) b 0 ob ltac:(lia) ltac:(lia)) as S.
      rewrite <- E', app_length in F, S. cbn [emitted length] in F, S. change (N.to_nat 1) with 1%nat.
      unfold max_decode_len in *. lia.
    + pose proof (fast_count src 0 k ltac:(lia)) as F.
      pose proof (slow_count src b 0 ob ltac:(lia) ltac:(lia)) as S.
      cbn [emitted] in F. change (N.to_nat 0) with 0%nat. unfold max_decode_len in *. lia.
Qed.

Lemma decode_bound src m : N.of_nat (max_decode_len (length src)) < 2 ^ 64 ->
  N.of_nat (extent (decode src m)) <= m /\
  (ret (decode src m) <= extent (decode src m))%nat.
Proof.
  intros HN. unfold decode, fast_decode, slow_decode. destruct (size_ok src m) eqn:Z; [|cbn; lia].
  assert (N.of_nat (length (snd (fast_loop src 0 0))) <= m /\
          N.of_nat (length (slow_loop src (None, None, None, None) 0 3)) <= m) as [F S].
  { destruct (last2 src) as [L|(pre & c2 & c1 & E)].
    - pose proof (fast_count src 0 0 ltac:(lia)). cbn [emitted] in *.
      pose proof (slow_count src (None, None, None, None) 0 3 ltac:(lia) ltac:(lia)). lia.
    - assert (Z' := Z). rewrite E in Z'. apply size_ok_last2 in Z'; [|rewrite <- E; exact HN].
      rewrite <- E in Z'.
      destruct (count_cases src (None, None, None, None) 0 3 0 ltac:(lia) ltac:(lia) eq_refl pre c2 c1 E) as [F S].
      lia. }
  destruct (fast_loop src 0 0) as [[rt z] o]. cbn [snd] in F.
  destruct (rt && z); cbn [extent ret]; lia.
Qed.

Lemma decode_max src m : (ret (decode src m) <= max_decode_len (length src))%nat.
Proof.
  assert (forall x n, (4 * x <= 3 * n -> x <= max_decode_len n)%nat) as A.
  { intros x n H. pose proof (needed_eq n). pose proof (Nat.mod_upper_bound (n + 3) 4 ltac:(lia)).
    lia. }
  unfold decode, fast_decode, slow_decode. destruct (size_ok src m); [|cbn; lia].
  pose proof (fast_count src 0 0 ltac:(lia)) as F.
  pose proof (slow_count src (None, None, None, None) 0 3 ltac:(lia) ltac:(lia)) as S.
  destruct (fast_loop src 0 0) as [[rt z] o]. cbn [snd emitted] in F.
  destruct (rt && z); cbn [ret]; apply A; lia.
Qed.

(** ** Indeterminate output *)
Definition is_some {A} (x : option A) : Prop := x <> None.

Definition group_set (b : inbuf) (ib : nat) : Prop :=
  let '(a0, a1, a2, _) := b in
  ((0 < ib)%nat -> a0 <> None) /\ ((1 < ib)%nat -> a1 <> None) /\ ((2 < ib)%nat -> a2 <> None).

Definition in1 (b : inbuf) : option N := let '(_, a1, _, _) := b in a1.

Lemma op2_some f a b : a <> None -> b <> None -> op2 f a b <> None.
Proof. destruct a, b; cbn; congruence. Qed.

Ltac ib_cases ib := destruct ib as [|[|[|[|ib]]]]; [..|exfalso; lia].

Lemma slow_written src : forall b ib ob, (ib <= 3)%nat -> group_set b ib -> in1 b <> None ->
  Forall is_some (slow_loop src b ib ob).
Proof.
  induction src as [|c r IH]; intros [[[a0 a1] a2] a3] ib ob Hi H H1; [constructor|].
  unfold group_set in H. cbn [in1] in H1. destruct H as (G0 & G1 & G2).
  cbn [slow_loop]. destruct (classify c).
  - unfold push. ib_cases ib; cbn [set_in Nat.eqb app].
    + apply IH; [lia| |exact H1]. cbn. repeat split; intros; (lia || discriminate).
    + apply IH; [lia| |discriminate]. cbn. repeat split; intros; try (lia || discriminate). apply G0; lia.
    + apply IH; [lia| |exact H1]. cbn. repeat split; intros; try (lia || discriminate); [apply G0|apply G1]; lia.
    + apply Forall_app. split.
      * assert (Forall is_some (slow_out (a0, a1, a2, Some v))) as F.
        { repeat constructor; apply op2_some; try assumption; try discriminate;
          [apply G0|apply G2|apply G2]; lia. }
        revert F. generalize (slow_out (a0, a1, a2, Some v)). clear.
        induction ob as [|ob IH]; intros l F; [constructor|].
        destruct F; cbn [firstn]; [constructor|]. constructor; [assumption|]. apply IH. assumption.
      * apply IH; [lia| |exact H1]. cbn. repeat split; intros; lia.
  - destruct (Nat.eqb_spec ib 0); [constructor|].
    unfold push. cbn [set_in Nat.eqb]. apply Forall_app. split.
    + assert (op2 (fun x y => u8 (N.lor (N.shiftl x 2) (N.shiftr (N.land y 48) 4))) a0 a1 <> None) as O0
        by (apply op2_some; [apply G0; lia|exact H1]).
      ib_cases ib; [lia|..]; cbn [pad_ob Nat.eqb orb slow_out firstn]; repeat constructor; auto.
      apply op2_some; [exact H1|apply G2; lia].
    + apply IH; [lia| |exact H1]. cbn. repeat split; intros; lia.
  - apply IH; [exact Hi| |exact H1]. cbn. auto.
  - constructor.
Qed.

Definition no_in : inbuf := (None, None, None, None).

Lemma slow_first txt : forall b, b = no_in -> 
  Forall is_some (slow_loop txt b 0 3) <->
  ~ (exists x r v, classify x = SVal v /\ significant txt = x :: 61 :: r).
Proof.
  intros b ->. rewrite <- slow_significant.
  assert (Forall (fun c => blank c = false) (significant txt)) as NB.
  { unfold significant. induction txt as [|c r IH]; [constructor|].
    cbn [filter]. destruct (blank c) eqn:B; cbn [negb map]; [exact IH|]. constructor; [|exact IH].
    unfold fold_url. destruct (N.eqb_spec c 45) as [->|]; [reflexivity|].
    destruct (N.eqb_spec c 95) as [->|]; [reflexivity|exact B]. }
  assert (forall c, blank c = false -> classify c <> SSkip) as NS.
  { intros c B. unfold classify. destruct (is_space c) eqn:S.
    - unfold is_space in S. unfold blank in B. rewrite orb_comm in B. congruence.
    - repeat match goal with |- context[if ?x then _ else _] => destruct x end; discriminate. }
  destruct (significant txt) as [|x [|y r]].
  - split; [intros _ (?&?&?&_&?); discriminate|constructor].
  - split; [intros _ (?&?&?&_&?); discriminate|]. intros _.
    cbn [slow_loop]. destruct (classify x); constructor.
  - apply Forall_cons_iff in NB as [B1 NB]. apply Forall_cons_iff in NB as [B2 _].
    pose proof (NS y B2) as S2. pose proof (NS x B1) as S1.
    cbn [slow_loop]. destruct (classify x) eqn:E1; [|split; [intros _ (?&?&?&E&[= -> -> ->]); congruence|constructor]|contradiction
      |split; [intros _ (?&?&?&E&[= -> -> ->]); congruence|constructor]].
    unfold no_in. cbn [push set_in Nat.eqb app].
    destruct (classify y) eqn:E2; [| |contradiction|].
    + split.
      * intros _ (?&?&?&_&[= -> -> ->]). discriminate E2.
      * intros _. apply (slow_written r); [lia| |discriminate]. cbn. repeat split; intros; (lia || discriminate).
    + assert (y = 61) as ->.
      { revert E2. unfold classify. 
        repeat match goal with |- context[if ?x then _ else _] => destruct x eqn:?; try discriminate end.
        intros _. now apply N.eqb_eq. }
      split; [|intros H; elim H; eauto].
      cbn. intros F. apply Forall_cons_iff in F as [F _]. elim F. reflexivity.
    + split; [|constructor]. intros _ (?&?&?&_&[= -> -> ->]). discriminate E2.
Qed.

Lemma classify_letter c : is_letter64 c <-> exists v, classify c = SVal v.
Proof.
  split.
  - intros (v & Hv & E). exists v. rewrite <- classify_fold, E. apply letter_facts. exact Hv.
  - intros [v E].
    pose (f := fun c => match classify c with SVal v => (v <? 64) && (fold_url c =? letter v) | _ => true end).
    assert (f c = true) as F.
    { apply (all_below_spec 123); [vm_compute; reflexivity|].
      revert E. unfold classify. 
      repeat match goal with |- context[if ?x then _ else _] => destruct x eqn:?; try discriminate end;
      intros _; lia. }
    unfold f in F. rewrite E in F. apply andb_prop in F as [F1 F2].
    exists v. split; [now apply N.ltb_lt|now apply N.eqb_eq].
Qed.

Lemma decode_determinate txt m :
  N.of_nat (max_decode_len (length txt)) <= m -> m < 2 ^ 64 ->
  (forall x, In x (out (decode txt m)) -> x <> None) <->
  ~ (exists x r, is_letter64 x /\ significant txt = x :: 61 :: r).
Proof.
  intros H1 H2.
  assert ((exists x r, is_letter64 x /\ significant txt = x :: 61 :: r) <->
          (exists x r v, classify x = SVal v /\ significant txt = x :: 61 :: r)) as EQ.
  { split.
    - intros (x & r & L & E). apply classify_letter in L as [v L]. eauto.
    - intros (x & r & v & L & E). exists x, r. split; [apply classify_letter; eauto|exact E]. }
  rewrite EQ. rewrite <- (slow_first txt no_in eq_refl). rewrite <- Forall_forall.
  change (fun x => x <> None) with (@is_some N).
  destruct txt as [|c r] eqn:ET.
  { unfold decode. destruct (size_ok [] m); cbn; split; constructor. }
  rewrite <- ET in *. assert (size_ok txt m = true) as Z by (apply size_ok_ge; [assumption..|subst; discriminate]).
  unfold decode, fast_decode. rewrite Z.
  destruct (fast_loop txt 0 0) as [[rt z] o] eqn:E.
  destruct (rt && z) eqn:OK; [|reflexivity]. cbn [out].
  split; intros _; [|apply Forall_forall; intros x Hx; apply in_map_iff in Hx as (y & <- & _); discriminate].
  apply (slow_first txt no_in eq_refl). intros (x & r' & v & L & S).
  apply andb_prop in OK as [-> _].
  pose proof (significant_plain txt (fast_ok_table txt _ _ _ _ E)) as HP.
  rewrite S in HP. rewrite <- HP in E. cbn [fast_loop] in E.
  change (table_dec 61) with 254 in E. cbn [N.leb N.compare Pos.compare Pos.compare_cont] in E.
  destruct (254 <=? table_dec x); discriminate.
Qed.
