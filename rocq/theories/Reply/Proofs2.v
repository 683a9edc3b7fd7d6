(** What the calls keep. *)
From Coq Require Import NArith Arith List Bool Ascii String Permutation Sorted Lia ZifyBool ZifyNat ZifyN.
From Verif.Reply Require Import Model Spec Proofs.
Import ListNotations.
Local Open Scope nat_scope.

Definition granted (r : response) (o : options) : response :=
  let u := oor (opts r) o in
  mkresp (started r) (protocol r) (status r) (reason r) (option_headers u (headers r)) u (needs_close r || closing u).

Lemma option_set_cases : forall q r o,
  option_set q r o = (false, r) \/
  option_set q r o = (true, granted r o) /\ started r = false /\
  (chunked o = true -> protocol r = P11) /\ (encodings o = true -> protocol r = P11) /\
  (let u := oor (opts r) o in gzip u && deflate u && lz4f u = false) /\ common o (ropts q) = true.
Proof.
  intros q r o. unfold option_set.
  destruct (started r) eqn:E0; [now left|].
  destruct (negb (is11 (protocol r)) && chunked o) eqn:E1; [now left|].
  destruct (negb (is11 (protocol r)) && encodings o) eqn:E2; [now left|].
  cbv zeta.
  destruct (gzip (oor (opts r) o) && deflate (oor (opts r) o) && lz4f (oor (opts r) o)) eqn:E3; [now left|].
  destruct (negb (common o (ropts q))) eqn:E4; [now left|].
  right. split; [unfold granted; now rewrite E0|]. split; [reflexivity|].
  apply negb_false_iff in E4.
  split; [|split; [|split; [reflexivity|exact E4]]].
  - intro C. rewrite C, andb_true_r in E1. destruct (protocol r); cbn in E1; congruence.
  - intro C. rewrite C, andb_true_r in E2. destruct (protocol r); cbn in E2; congruence.
Qed.

Record Inv (q : request) (r : response) : Prop := mkInv {
  i_started : started r = false;
  i_nodup : NoDup (map fst (headers r));
  i_code : (status r < 1000)%N;
  i_proto : protocol r = P09 \/ protocol r = rprotocol q;
  i_ch : chunked (opts r) = true -> protocol r = P11;
  i_enc : encodings (opts r) = true -> protocol r = P11;
  i_not3 : gzip (opts r) && deflate (opts r) && lz4f (opts r) = false;
  i_close : closing (opts r) = true -> needs_close r = true
}.

Lemma oh_nodup : forall o t, NoDup (map fst t) -> NoDup (map fst (option_headers o t)).
Proof.
  intros o t H. unfold option_headers. cbv zeta.
  destruct (chunked o), (encodings o), (gzip o), (deflate o), (closing o); repeat apply hset_nodup; exact H.
Qed.

Lemma Inv_fresh : forall q, Inv q fresh.
Proof. intro q. constructor; cbn; try discriminate; auto; try constructor. Qed.
Lemma Inv_granted : forall q r o, Inv q r ->
  (chunked o = true -> protocol r = P11) -> (encodings o = true -> protocol r = P11) ->
  (let u := oor (opts r) o in gzip u && deflate u && lz4f u = false) -> Inv q (granted r o).
Proof.
  intros q r o [] H1 H2 H3. constructor; cbn -[encodings]; auto.
  - now apply oh_nodup.
  - intro C. apply orb_true_iff in C as [C|C]; auto.
  - intro C. unfold encodings in *. cbn in C.
    destruct (gzip (opts r)), (deflate (opts r)), (lz4f (opts r)), (gzip o), (deflate o), (lz4f o); cbn in *; auto; discriminate.
  - intro C. rewrite C. now rewrite orb_true_r.
Qed.
Lemma Inv_call : forall q r o, Inv q r -> Inv q (snd (call q r o)).
Proof.
  intros q r o H. pose proof H as [A B C D E F G K]. destruct o as [c w|k v|o]; cbn [call].
  - unfold status_set. rewrite A. cbv zeta.
    assert (X : protocol r = P11 -> rprotocol q = P11) by (destruct D as [D|D]; congruence).
    destruct ((c <? 100)%N || (999 <? c)%N) eqn:R; cbn; constructor; cbn; auto.
    apply orb_false_iff in R as [_ R]. apply N.ltb_ge in R. lia.
  - unfold header_set. rewrite A. cbn. constructor; cbn; auto. now apply hset_nodup.
  - destruct (option_set_cases q r o) as [X|[X [_ [P1 [P2 [P3 _]]]]]]; rewrite X; cbn; [exact H|].
    now apply Inv_granted.
Qed.
Lemma Inv_run : forall q l r, Inv q r -> Inv q (run q r l).
Proof. intros q. unfold run. induction l as [|o l IH]; intros r H; cbn; [exact H|]. apply IH. now apply Inv_call. Qed.

(** * Names the server owns *)
Definition owned (n : bytes) (o : option bytes) (h : table) : Prop :=
  forall k, same_name k n -> hget h k = if beq k n then o else None.
Lemma owned_other : forall n o h k v, ~ same_name k n -> owned n o h -> owned n o (hset h k v).
Proof.
  intros n o h k v H W k' E. rewrite hget_hset. destruct (beq_spec k k') as [->|_]; [contradiction|now apply W].
Qed.
Lemma owned_set : forall n o h v, owned n o h -> owned n (Some v) (hset h n v).
Proof.
  intros n o h v W k E. rewrite hget_hset. destruct (beq_spec n k) as [->|N].
  - now rewrite beq_refl.
  - rewrite beq_neq by congruence. rewrite (W k E). now rewrite beq_neq by congruence.
Qed.
Lemma name_is_iff : forall n k, name_is n k = true <-> same_name k n.
Proof. intros n k. unfold name_is, same_name. destruct list_eq_dec; split; congruence. Qed.
Lemma owned_values : forall n o h, NoDup (map fst h) -> owned n o h ->
  values n h = match o with Some v => [v] | None => [] end.
Proof.
  intros n o h. unfold values. revert o.
  induction h as [|[k v] h IH]; intros o H W.
  - specialize (W n eq_refl). rewrite beq_refl in W. cbn in W. now rewrite <- W.
  - cbn in H. inversion H as [|? ? H1 H2]; subst.
    assert (Wt : forall k', same_name k' n -> k' <> k -> hget h k' = if beq k' n then o else None).
    { intros k' E Ne. specialize (W k' E). cbn in W. rewrite beq_neq in W by congruence. exact W. }
    cbn [filter fst]. destruct (name_is n k) eqn:E.
    + apply name_is_iff in E. pose proof (W k E) as Wk. cbn in Wk. rewrite beq_refl in Wk.
      destruct (beq_spec k n) as [->|Ne]; [|discriminate]. subst o.
      cbn [map snd]. f_equal. rewrite (IH None H2); [reflexivity|].
      intros k' E'. destruct (beq_spec k' n) as [->|Ne].
      * destruct (hget h n) eqn:G; [|reflexivity]. apply hget_in in G. apply (in_map fst) in G. contradiction.
      * rewrite (Wt k' E' Ne). now rewrite beq_neq.
    + apply IH; [exact H2|]. intros k' E'. apply Wt; [exact E'|]. intros ->.
      apply name_is_iff in E'. congruence.
Qed.

Definition TE := text "Transfer-Encoding".
Definition CN := text "Connection".
Definition CE := text "Content-Encoding".
Definition VA := text "Vary".
Definition te_of (o : options) := if chunked o then Some (text "chunked") else None.
Definition cn_of (o : options) := if closing o then Some (text "close") else None.
Definition ce_of (o : options) :=
  if gzip o then Some (text "gzip") else if deflate o then Some (text "deflate") else if lz4f o then Some (text "lz4f") else None.
Definition va_of (o : options) := if encodings o then Some (text "Accept-Encoding") else None.
Record HInv (r : response) : Prop := mkHInv {
  h_te : owned TE (te_of (opts r)) (headers r);
  h_cn : owned CN (cn_of (opts r)) (headers r);
  h_ce : owned CE (ce_of (opts r)) (headers r);
  h_va : owned VA (va_of (opts r)) (headers r)
}.
Ltac ne := let X := fresh in intro X; vm_compute in X; discriminate X.
Lemma TE_CN : ~ same_name TE CN. Proof. ne. Qed.
Lemma TE_CE : ~ same_name TE CE. Proof. ne. Qed.
Lemma TE_VA : ~ same_name TE VA. Proof. ne. Qed.
Lemma CN_TE : ~ same_name CN TE. Proof. ne. Qed.
Lemma CN_CE : ~ same_name CN CE. Proof. ne. Qed.
Lemma CN_VA : ~ same_name CN VA. Proof. ne. Qed.
Lemma CE_TE : ~ same_name CE TE. Proof. ne. Qed.
Lemma CE_CN : ~ same_name CE CN. Proof. ne. Qed.
Lemma CE_VA : ~ same_name CE VA. Proof. ne. Qed.
Lemma VA_TE : ~ same_name VA TE. Proof. ne. Qed.
Lemma VA_CN : ~ same_name VA CN. Proof. ne. Qed.
Lemma VA_CE : ~ same_name VA CE. Proof. ne. Qed.

Lemma oh_eq : forall o t, option_headers o t =
  let t := if chunked o then hset t TE (text "chunked") else t in
  let t := match ce_of o with Some c => hset (hset t VA (text "Accept-Encoding")) CE c | None => t end in
  if closing o then hset t CN (text "close") else t.
Proof.
  intros o t. unfold option_headers, ce_of, encodings. cbv zeta. rewrite !bs_text.
  change (text "Transfer-Encoding") with TE. change (text "Connection") with CN.
  change (text "Content-Encoding") with CE. change (text "Vary") with VA.
  destruct (chunked o), (gzip o), (deflate o), (lz4f o), (closing o); reflexivity.
Qed.
Lemma owned_oh_te : forall o b t, owned TE b t -> (chunked o = false -> b = None) -> owned TE (te_of o) (option_headers o t).
Proof.
  intros o b t H N. rewrite oh_eq. unfold te_of. cbv zeta.
  assert (W : owned TE (if chunked o then Some (text "chunked") else None) (if chunked o then hset t TE (text "chunked") else t)).
  { destruct (chunked o); [now apply owned_set with b|rewrite <- (N eq_refl); exact H]. }
  revert W. generalize (if chunked o then hset t TE (text "chunked") else t). intros t' W.
  destruct (ce_of o), (closing o); repeat apply owned_other; auto using CN_TE, CE_TE, VA_TE.
Qed.
Lemma owned_oh_cn : forall o b t, owned CN b t -> (closing o = false -> b = None) -> owned CN (cn_of o) (option_headers o t).
Proof.
  intros o b t H N. rewrite oh_eq. unfold cn_of. cbv zeta.
  assert (W : owned CN b (match ce_of o with
    | Some c => hset (hset (if chunked o then hset t TE (text "chunked") else t) VA (text "Accept-Encoding")) CE c
    | None => if chunked o then hset t TE (text "chunked") else t end)).
  { destruct (ce_of o), (chunked o); repeat apply owned_other; auto using TE_CN, CE_CN, VA_CN. }
  destruct (closing o); [now apply owned_set with b|rewrite <- (N eq_refl); exact W].
Qed.
Lemma owned_oh_ce : forall o b t, owned CE b t -> (ce_of o = None -> b = None) -> owned CE (ce_of o) (option_headers o t).
Proof.
  intros o b t H N. rewrite oh_eq. cbv zeta.
  assert (W : owned CE b (if chunked o then hset t TE (text "chunked") else t)).
  { destruct (chunked o); repeat apply owned_other; auto using TE_CE. }
  assert (W2 : owned CE (ce_of o) (match ce_of o with
    | Some c => hset (hset (if chunked o then hset t TE (text "chunked") else t) VA (text "Accept-Encoding")) CE c
    | None => if chunked o then hset t TE (text "chunked") else t end)).
  { destruct (ce_of o); [apply owned_set with b; apply owned_other; auto using VA_CE|rewrite <- (N eq_refl); exact W]. }
  destruct (closing o); [apply owned_other; auto using CN_CE|exact W2].
Qed.
Lemma va_ce : forall o, va_of o = match ce_of o with Some _ => Some (text "Accept-Encoding") | None => None end.
Proof. intro o. unfold va_of, ce_of, encodings. destruct (gzip o), (deflate o), (lz4f o); reflexivity. Qed.
Lemma owned_oh_va : forall o b t, owned VA b t -> (ce_of o = None -> b = None) -> owned VA (va_of o) (option_headers o t).
Proof.
  intros o b t H N. rewrite oh_eq, va_ce. cbv zeta.
  assert (W : owned VA b (if chunked o then hset t TE (text "chunked") else t)).
  { destruct (chunked o); repeat apply owned_other; auto using TE_VA. }
  assert (W2 : owned VA (match ce_of o with Some _ => Some (text "Accept-Encoding") | None => None end) (match ce_of o with
    | Some c => hset (hset (if chunked o then hset t TE (text "chunked") else t) VA (text "Accept-Encoding")) CE c
    | None => if chunked o then hset t TE (text "chunked") else t end)).
  { destruct (ce_of o); [apply owned_other; [apply CE_VA|]; apply owned_set with b; auto|rewrite <- (N eq_refl); exact W]. }
  destruct (closing o); [apply owned_other; auto using CN_VA|exact W2].
Qed.
Lemma HInv_fresh : HInv fresh.
Proof. constructor; intros k _; cbn; now destruct (beq k _). Qed.
Lemma HInv_granted : forall r o, HInv r -> HInv (granted r o).
Proof.
  intros r o []. constructor; cbn [granted opts headers].
  - apply owned_oh_te with (te_of (opts r)); [assumption|]. unfold te_of. cbn.
    destruct (chunked (opts r)); [discriminate|reflexivity].
  - apply owned_oh_cn with (cn_of (opts r)); [assumption|]. unfold cn_of. cbn.
    destruct (closing (opts r)); [discriminate|reflexivity].
  - apply owned_oh_ce with (ce_of (opts r)); [assumption|]. unfold ce_of. cbn.
    destruct (gzip (opts r)), (deflate (opts r)), (lz4f (opts r)), (gzip o), (deflate o), (lz4f o); cbn; congruence.
  - apply owned_oh_va with (va_of (opts r)); [assumption|]. rewrite va_ce. unfold ce_of. cbn.
    destruct (gzip (opts r)), (deflate (opts r)), (lz4f (opts r)), (gzip o), (deflate o), (lz4f o); cbn; congruence.
Qed.
Lemma HInv_call : forall q r o, plain o -> started r = false -> HInv r -> HInv (snd (call q r o)).
Proof.
  intros q r o P A H. pose proof H as [A1 A2 A3 A4]. destruct o as [c w|k v|o]; cbn [call].
  - unfold status_set. rewrite A. cbv zeta. destruct ((c <? 100)%N || (999 <? c)%N); cbn; constructor; assumption.
  - unfold header_set. rewrite A. cbn. destruct P as [P1 [P2 [P3 P4]]].
    constructor; cbn; apply owned_other; assumption.
  - destruct (option_set_cases q r o) as [X|[X _]]; rewrite X; cbn; [exact H|now apply HInv_granted].
Qed.
Lemma HInv_run : forall q l r, Forall plain l -> Inv q r -> HInv r -> HInv (run q r l).
Proof.
  intros q. unfold run. induction l as [|o l IH]; intros r P I H; cbn; [exact H|].
  inversion P; subst. apply IH; [assumption|now apply Inv_call|]. apply HInv_call; auto. apply I.
Qed.
