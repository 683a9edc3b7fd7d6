(** The leader. *)
From Coq Require Import NArith Arith List Bool Ascii String Permutation Sorted Lia ZifyBool ZifyNat ZifyN.
From Verif.Reply Require Import Model Spec Proofs Proofs2.
Import ListNotations.
Local Open Scope nat_scope.

Definition ones : list options := [oCHUNKED; oCLOSE; oGZIP; oDEFLATE; oLZ4F].
Definition closed (q : request) (P : response -> Prop) : Prop :=
  forall r o, P r -> In o ones -> option_set q r o = (true, granted r o) -> P (granted r o).

Lemma closed_snd : forall q P r o, closed q P -> In o ones -> P r -> P (snd (option_set q r o)).
Proof.
  intros q P r o C I H. destruct (option_set_cases q r o) as [X|[X _]]; rewrite X; [exact H|].
  now apply C.
Qed.
Lemma choose_P : forall q P r, closed q P -> P r -> P (choose_encoding q r).
Proof.
  intros q P r C H. unfold choose_encoding.
  destruct (is11 (protocol r) && chunked (opts r)); [|exact H].
  destruct (gzip (ropts q)); [apply closed_snd; auto; cbn; tauto|].
  destruct (deflate (ropts q)); [apply closed_snd; auto; cbn; tauto|].
  destruct (lz4f (ropts q)); [apply closed_snd; auto; cbn; tauto|exact H].
Qed.
Lemma framing_P : forall q P fuel r r' keys, closed q P -> P r ->
  framing fuel q r = Done (r', keys) -> P r' /\ keys = map fst (headers r').
Proof.
  intros q P. induction fuel as [|fuel IH]; intros r r' keys C H E; cbn in E; [discriminate|].
  destruct (existsb is_cl (map fst (headers r)) || chunked (opts r) || closing (opts r)).
  - injection E as <- <-. split; [exact H|reflexivity].
  - destruct (option_set_cases q r oCHUNKED) as [X|[X _]]; rewrite X in E.
    + destruct (option_set_cases q r oCLOSE) as [Y|[Y _]]; rewrite Y in E.
      * injection E as <- <-. split; [exact H|reflexivity].
      * apply IH in E; auto. apply C; auto. cbn; tauto.
    + apply IH in E; auto. apply C; auto. cbn; tauto.
Qed.

Lemma closed_Inv : forall q, closed q (Inv q).
Proof.
  intros q r o H I E. destruct (option_set_cases q r o) as [X|[_ [_ [P1 [P2 [P3 _]]]]]]; [congruence|].
  now apply Inv_granted.
Qed.
Lemma closed_HInv : forall q, closed q HInv.
Proof. intros q r o H _ _. now apply HInv_granted. Qed.
Lemma closed_line : forall q a b c, closed q (fun r => protocol r = a /\ status r = b /\ reason r = c).
Proof. intros q a b c r o H _ _. exact H. Qed.

(** With a client that accepts closing, the loop ends with a framing. *)
Definition framed (r : response) : bool :=
  existsb is_cl (map fst (headers r)) || chunked (opts r) || closing (opts r).
Lemma framing_framed : forall q fuel r r' keys, Inv q r -> closing (ropts q) = true ->
  framing fuel q r = Done (r', keys) -> framed r' = true.
Proof.
  intros q. induction fuel as [|fuel IH]; intros r r' keys I C E; cbn in E; [discriminate|].
  destruct (existsb is_cl (map fst (headers r)) || chunked (opts r) || closing (opts r)) eqn:F.
  - injection E as <- <-. exact F.
  - destruct (option_set_cases q r oCHUNKED) as [X|[X _]]; rewrite X in E.
    + destruct (option_set_cases q r oCLOSE) as [Y|[Y _]]; rewrite Y in E.
      * exfalso. unfold option_set in Y. rewrite (i_started q r I) in Y.
        cbn in Y. rewrite !andb_false_r, !orb_false_r in Y. rewrite (i_not3 q r I) in Y.
        unfold common in Y. cbn in Y. rewrite C in Y. discriminate Y.
      * apply IH in E; auto. apply closed_Inv; auto. cbn; tauto.
    + apply IH in E; auto. apply closed_Inv; auto. cbn; tauto.
Qed.
Lemma framing_total : forall q r, exists r' keys, framing 3 q r = Done (r', keys).
Proof.
  intros q r. cbn [framing].
  destruct (existsb is_cl (map fst (headers r)) || chunked (opts r) || closing (opts r)); [eauto|].
  destruct (option_set_cases q r oCHUNKED) as [X|[X _]]; rewrite X.
  - destruct (option_set_cases q r oCLOSE) as [Y|[Y _]]; rewrite Y; [eauto|].
    cbn [granted opts oor closing oCLOSE]. rewrite !orb_true_r. cbn. eauto.
  - cbn [granted opts oor chunked oCHUNKED]. rewrite !orb_true_r. cbn. eauto.
Qed.

(** The leader under the invariants. *)
Definition fields_of (t : table) (keys : list bytes) : list (bytes * bytes) := map (fun k => (k, value_of t k)) keys.
Lemma leader_inv : forall B order q r r' out, leader B order q r = Done (r', out) ->
  List.length (status_text r) <= B /\ framing 3 q (choose_encoding q r) = Done (r', map fst (headers r')) /\
  List.concat out = (if List.length (status_text r) =? B then firstn (B - 1) (status_text r) ++ [0%N] else status_text r)
    ++ flat_map (fun f => field_line f ++ crlf) (fields_of (headers r') (order (map fst (headers r')))) ++ crlf.
Proof.
  intros B order q r r' out E. unfold leader in E. cbv zeta in E.
  destruct (B <? List.length (status_text r)) eqn:L; [discriminate|]. apply Nat.ltb_ge in L.
  destruct (framing 3 q (choose_encoding q r)) as [[r1 keys]| |] eqn:F; try discriminate.
  injection E as <- <-.
  destruct (framing_P q (fun _ => True) 3 _ r1 keys (fun _ _ _ _ _ => Logic.I) Logic.I F) as [_ K]. subst keys.
  split; [exact L|]. split; [reflexivity|].
  match goal with |- List.concat (full ?c ++ [last_block ?c]) = _ => change (full c ++ [last_block c]) with (blocks c) end.
  rewrite append_text, headers_text, concat_blocks. cbn [full last_block List.concat app].
  rewrite <- app_assoc. reflexivity.
Qed.

Lemma leader_P : forall B order q r r' out P, closed q P -> P r ->
  leader B order q r = Done (r', out) -> P r'.
Proof.
  intros B order q r r' out P C H E. apply leader_inv in E as [_ [F _]].
  now apply (framing_P q P) in F; [|assumption|apply choose_P].
Qed.
Lemma leader_ok : forall B order q r r' out, Inv q r -> sorts order ->
  leader B order q r = Done (r', out) -> List.length (status_text r) <> B ->
  exists line fields, status_line (protocol r) (status r) (reason r) line /\
    Permutation fields (headers r') /\ Sorted name_le (map fst fields) /\ List.concat out = head_text line fields.
Proof.
  intros B order q r r' out I S E N.
  pose proof (leader_P B order q r r' out (Inv q) (closed_Inv q) I E) as I'.
  apply leader_inv in E as [L [F T]].
  destruct (status_text_spec r (i_code q r I)) as [line [SL SE]].
  exists line, (fields_of (headers r') (order (map fst (headers r')))).
  destruct (S (map fst (headers r'))) as [S1 S2].
  split; [exact SL|]. split; [|split].
  - eapply Permutation_trans; [apply Permutation_map; apply Permutation_sym; exact S1|].
    rewrite (table_fields (headers r') (i_nodup q r' I')). apply Permutation_refl.
  - unfold fields_of. rewrite map_map. cbn. rewrite map_id. exact S2.
  - rewrite T. apply Nat.eqb_neq in N. rewrite N, SE. unfold head_text. now rewrite <- app_assoc.
Qed.
Lemma leader_total : forall B order q r, List.length (status_text r) <= B ->
  exists r' out, leader B order q r = Done (r', out).
Proof.
  intros B order q r L. unfold leader. cbv zeta. apply Nat.ltb_ge in L. rewrite L.
  destruct (framing_total q (choose_encoding q r)) as [r' [keys E]]. rewrite E. eauto.
Qed.
Lemma leader_bad : forall B order q r, B < List.length (status_text r) -> leader B order q r = Bad.
Proof. intros B order q r L. unfold leader. cbv zeta. apply Nat.ltb_lt in L. now rewrite L. Qed.

(** * Reading the head *)
Lemma split_crlf : forall l l' t t', one_line l -> one_line l' -> l ++ crlf ++ t = l' ++ crlf ++ t' -> l = l' /\ t = t'.
Proof.
  induction l as [|x l IH]; intros [|y l'] t t' [H1 H2] [K1 K2] E; cbn in E.
  - injection E as E. now split.
  - injection E as E _. subst y. exfalso. apply K1. now left.
  - injection E as E _. subst x. exfalso. apply H1. now left.
  - injection E as E1 E2. subst y. destruct (IH l' t t') as [A B]; [split; intro; [apply H1|apply H2]; now right|split; intro; [apply K1|apply K2]; now right|exact E2|].
    now subst.
Qed.
Lemma reads_unique : forall t ls rest, reads t ls rest -> forall ls' rest', reads t ls' rest' -> ls = ls' /\ rest = rest'.
Proof.
  assert (N : forall l t rest, l <> [] -> one_line l -> crlf ++ rest = l ++ crlf ++ t -> False).
  { intros [|x l] t rest Z [O _] E; [congruence|]. injection E as E _. subst. apply O. now left. }
  induction 1 as [rest|l t ls rest Z O R IH]; intros ls' rest' R'.
  - remember (crlf ++ rest) as u. destruct R' as [rest2|l2 t2 ls2 rest2 Z2 O2 R2].
    + apply app_inv_head in Hequ. now subst.
    + symmetry in Hequ. exfalso. eapply N; eauto.
  - remember (l ++ crlf ++ t) as u. destruct R' as [rest2|l2 t2 ls2 rest2 Z2 O2 R2].
    + exfalso. eapply N; [exact Z|exact O|exact Hequ].
    + apply split_crlf in Hequ as [-> ->]; auto. destruct (IH _ _ R2) as [-> ->]. now split.
Qed.
Lemma one_line_app : forall a b, one_line a -> one_line b -> one_line (a ++ b).
Proof. intros a b [A1 A2] [B1 B2]. split; intro I; apply in_app_or in I as [I|I]; contradiction. Qed.
Definition one_line_dec (l : bytes) : bool := forallb (fun c => negb (N.eqb c 13) && negb (N.eqb c 10)) l.
Lemma one_line_decP : forall l, one_line_dec l = true -> one_line l.
Proof.
  intros l H. unfold one_line_dec in H. rewrite forallb_forall in H.
  split; intro I; apply H in I; discriminate I.
Qed.
Lemma field_line_one : forall f, one_line (fst f) -> one_line (snd f) -> one_line (field_line f).
Proof.
  intros f A B. unfold field_line. apply one_line_app; [exact A|]. apply one_line_app; [|exact B].
  now apply one_line_decP.
Qed.
Lemma head_reads : forall line fields rest, line <> [] -> one_line line ->
  Forall (fun f => one_line (fst f) /\ one_line (snd f)) fields ->
  reads (head_text line fields ++ rest) (line :: map field_line fields) rest.
Proof.
  intros line fields rest Z O F. unfold head_text. rewrite <- !app_assoc. constructor; auto.
  clear Z O. induction F as [|f fs [A B] F IH]; cbn [flat_map map].
  - apply reads_end.
  - rewrite <- !app_assoc. constructor; auto.
    + unfold field_line. destruct (fst f); discriminate.
    + now apply field_line_one.
Qed.
Lemma split_colon : forall k k' v v', ~ In 58%N k -> ~ In 58%N k' ->
  k ++ 58%N :: v = k' ++ 58%N :: v' -> k = k' /\ v = v'.
Proof.
  induction k as [|x k IH]; intros [|y k'] v v' H K E; cbn in E.
  - injection E as E. now split.
  - injection E as E _. subst. exfalso. apply K. now left.
  - injection E as E _. subst. exfalso. apply H. now left.
  - injection E as E1 E2. subst. destruct (IH k' v v') as [A B]; auto; [intro; apply H; now right|intro; apply K; now right|].
    now subst.
Qed.
Lemma field_line_inj : forall f g, ~ In 58%N (fst f) -> ~ In 58%N (fst g) -> field_line f = field_line g -> f = g.
Proof.
  intros [k v] [k' v'] A B E. unfold field_line in E. cbn in E.
  apply split_colon in E as [-> E]; auto. injection E as E. now subst.
Qed.

(** Clean calls give a clean table. *)
Definition cleanr (r : response) : Prop :=
  Forall (fun f => one_line (fst f) /\ one_line (snd f)) (headers r) /\
  match reason r with Some w => one_line w | None => True end.
Lemma hset_forall : forall (P : bytes * bytes -> Prop) t k v, (forall k', k' = k -> P (k', v)) -> Forall P t -> Forall P (hset t k v).
Proof.
  intros P t k v H F. induction F as [|[a b] t A F IH]; cbn; [constructor; auto|].
  destruct (beq_spec a k) as [->|N]; constructor; auto.
Qed.
Lemma oh_clean : forall o t, Forall (fun f => one_line (fst f) /\ one_line (snd f)) t ->
  Forall (fun f => one_line (fst f) /\ one_line (snd f)) (option_headers o t).
Proof.
  intros o t H. unfold option_headers. cbv zeta.
  destruct (chunked o), (encodings o), (gzip o), (deflate o), (closing o);
    repeat (apply hset_forall; [intros k' ->; split; now apply one_line_decP|]); exact H.
Qed.
Lemma cleanr_granted : forall r o, cleanr r -> cleanr (granted r o).
Proof. intros r o [A B]. split; cbn; [now apply oh_clean|exact B]. Qed.
Lemma cleanr_call : forall q r o, clean o -> cleanr r -> cleanr (snd (call q r o)).
Proof.
  intros q r o C H. pose proof H as [A B]. destruct o as [c w|k v|o]; cbn [call].
  - unfold status_set. destruct (started r); [exact H|]. cbv zeta.
    destruct ((c <? 100)%N || (999 <? c)%N); cbn; split; cbn; auto.
  - unfold header_set. destruct (started r); [exact H|]. cbn. split; cbn; auto.
    destruct C as [C1 C2]. apply hset_forall; [|exact A]. intros k' ->. now split.
  - destruct (option_set_cases q r o) as [X|[X _]]; rewrite X; cbn; [exact H|now apply cleanr_granted].
Qed.
Lemma cleanr_run : forall q l r, Forall clean l -> cleanr r -> cleanr (run q r l).
Proof.
  intros q. unfold run. induction l as [|o l IH]; intros r F H; cbn; [exact H|]. inversion F; subst.
  apply IH; auto. now apply cleanr_call.
Qed.
Lemma status_line_clean : forall p c w l, status_line p c w l ->
  match w with Some w => one_line w | None => True end -> l <> [] /\ one_line l.
Proof.
  intros p c w l [a [b [d [A [B [D [_ ->]]]]]]] C. split; [destruct p; discriminate|].
  apply one_line_app; [apply one_line_decP; now destruct p|].
  apply one_line_app; [now apply one_line_decP|].
  apply one_line_app; [split; intros [X|[X|[X|[]]]]; lia|].
  apply one_line_app; [now apply one_line_decP|].
  destruct w; [exact C|now apply one_line_decP].
Qed.
