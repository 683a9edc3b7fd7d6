From Coq Require Import NArith ZArith List Bool String Lia ZifyBool ZifyNat ZifyN.
From Verif.Head Require Import Model Spec Proofs Proofs2 Proofs3 Proofs4 Proofs5 Proofs6.
Import ListNotations.
Local Open Scope string_scope.
Local Open Scope list_scope.
Local Open Scope nat_scope.

Lemma lines_whole : forall ls, lines ls -> whole (head ls).
Proof. intros ls [N F]. apply head_whole; auto. Qed.

Lemma small_heads : forall ls, lines ls -> exists R, forall B n rest ans,
  List.length (crlfs n ++ head ls) <= B - B / 4 -> ~ In Eof ans ->
  match serve B ans (crlfs n ++ head ls ++ rest) with
  | Waiting _ _ => readies ans < List.length (crlfs n ++ head ls)
  | Served r l u => R = Some r /\ pending l u = rest
  | Closed => R = None
  | Undefined => False
  end.
Proof.
  intros ls L. exists (match head_result (head ls) with Done r => Some r | _ => None end).
  intros B n rest ans Lim NE.
  pose proof (serve_block B n (head ls) rest ans (lines_whole _ L) Lim NE) as H.
  destruct (serve B ans _); cbn [right_outcome] in H; auto.
  - destruct H as [-> H]. auto.
  - rewrite H. reflexivity.
  - unfold head_result in H. exact (parse_not_bad _ H).
Qed.

Lemma served_result : forall B n rest ans ls r l u, lines ls ->
  List.length (crlfs n ++ head ls) <= B - B / 4 -> ~ In Eof ans ->
  serve B ans (crlfs n ++ head ls ++ rest) = Served r l u ->
  parse_body (text ls) = Done r.
Proof.
  intros B n rest ans ls r l u L Lim NE E.
  pose proof (serve_block B n (head ls) rest ans (lines_whole _ L) Lim NE) as H. rewrite E in H. cbn in H.
  rewrite <- head_result_text. apply H.
Qed.

Lemma ok_lines : forall l hs ls, l <> [] -> fields_of hs ls -> lines_ok (l :: ls) -> lines (l :: ls).
Proof.
  intros l hs ls N F O. split; [discriminate|]. apply fields_line_nonempty in F. unfold lines_ok in O.
  rewrite Forall_forall in *. intros x I. split; [apply O; exact I|]. destruct I as [<-|I]; auto.
Qed.
Lemma line1_nonempty : forall m u p : bytes, m ++ 32%N :: u ++ 32%N :: p <> [].
Proof. intros [|] u p; discriminate. Qed.

(** the outcome for a request written as in the specification *)
Lemma serve_fields : forall B ans n m u p hs ls rest, let l1 := m ++ 32%N :: u ++ 32%N :: p in
  ~ In 32%N m -> ~ In 32%N u -> fields_of hs ls -> lines_ok (l1 :: ls) ->
  List.length (crlfs n ++ head (l1 :: ls)) <= B - B / 4 -> ~ In Eof ans ->
  List.length (crlfs n ++ head (l1 :: ls)) <= readies ans ->
  match conclude (put_fields (started m u p) hs) with
  | Done r => exists l v, serve B ans (crlfs n ++ head (l1 :: ls) ++ rest) = Served r l v /\ pending l v = rest
  | Refused => serve B ans (crlfs n ++ head (l1 :: ls) ++ rest) = Closed
  | Bad => False
  end.
Proof.
  intros B ans n m u p hs ls rest l1 A1 A2 F O Lim NE Rd.
  pose proof (serve_block B n (head (l1 :: ls)) rest ans
    (lines_whole _ (ok_lines _ _ _ (line1_nonempty m u p) F O)) Lim NE) as H.
  rewrite <- (parse_fields m u p hs ls A1 A2 F O). rewrite <- head_result_text. fold l1.
  destruct (serve B ans _) as [i v|r l v| |]; cbn [right_outcome] in H.
  - lia.
  - destruct H as [-> H]. exists l, v. auto.
  - rewrite H. reflexivity.
  - exfalso. unfold head_result in H. exact (parse_not_bad _ H).
Qed.

Lemma request_ok : forall B ans n m u p hs ls rest, let l1 := m ++ 32%N :: u ++ 32%N :: p in
  ~ In 32%N m -> ~ In 32%N u -> fields_of hs ls -> lines_ok (l1 :: ls) ->
  List.length (crlfs n ++ head (l1 :: ls)) <= B - B / 4 -> ~ In Eof ans ->
  List.length (crlfs n ++ head (l1 :: ls)) <= readies ans ->
  last_value (bs "expect") hs None ->
  exists r l v, serve B ans (crlfs n ++ head (l1 :: ls) ++ rest) = Served r l v
    /\ pending l v = rest
    /\ method_str r = m /\ uri_str r = u /\ protocol_str r = p
    /\ (forall k o, last_value k hs o -> hget (fields r) k = o)
    /\ (wants_gzip r = true <-> mentions hs (bs "accept-encoding") (bs "gzip"))
    /\ (wants_deflate r = true <-> mentions hs (bs "accept-encoding") (bs "deflate"))
    /\ (wants_lz4f r = true <-> mentions hs (bs "accept-encoding") (bs "lz4f"))
    /\ expects r = false.
Proof.
  intros B ans n m u p hs ls rest l1 A1 A2 F O Lim NE Rd Ex.
  pose proof (serve_fields B ans n m u p hs ls rest A1 A2 F O Lim NE Rd) as H. fold l1 in H.
  rewrite (conclude_line1 _ m u p) in H.
  - destruct H as (l & v & E & P). eexists _, l, v. split; [exact E|]. split; [exact P|].
    cbn [method_str uri_str protocol_str fields wants_gzip wants_deflate wants_lz4f expects].
    destruct (put_fields_flags hs (started m u p)) as (G & D & Z).
    cbn [started gzip deflate lz4f] in G, D, Z.
    repeat split; auto; try (intros; apply started_get; assumption).
    + intro X. apply G in X as [X|X]; [discriminate|exact X]. + intro X. apply G. auto.
    + intro X. apply D in X as [X|X]; [discriminate|exact X]. + intro X. apply D. auto.
    + intro X. apply Z in X as [X|X]; [discriminate|exact X]. + intro X. apply Z. auto.
  - apply put_fields_line1.
  - apply started_get. exact Ex.
Qed.

Lemma accepted : forall B ans n l1 ls rest r l v, l1 <> [] -> Forall (fun l => l <> []) ls -> lines_ok (l1 :: ls) ->
  List.length (crlfs n ++ head (l1 :: ls)) <= B - B / 4 -> ~ In Eof ans ->
  serve B ans (crlfs n ++ head (l1 :: ls) ++ rest) = Served r l v ->
  exists m u p hs, l1 = m ++ 32%N :: u ++ 32%N :: p /\ ~ In 32%N m /\ ~ In 32%N u /\ fields_of hs ls.
Proof.
  intros B ans n l1 ls rest r l v N1 N O Lim NE E. eapply parse_fields_inv; eauto.
  eapply served_result; eauto. split; [discriminate|]. unfold lines_ok in O. rewrite Forall_forall in *.
  intros x I. split; [apply O; exact I|]. destruct I as [<-|I]; auto.
Qed.

Lemma nul_same : forall B ans n ls rest r l v B' ans' n' ls' rest' r' l' v' a b b',
  lines ls -> lines ls' -> text ls = a ++ 0%N :: b -> text ls' = a ++ 0%N :: b' ->
  List.length (crlfs n ++ head ls) <= B - B / 4 -> ~ In Eof ans ->
  List.length (crlfs n' ++ head ls') <= B' - B' / 4 -> ~ In Eof ans' ->
  serve B ans (crlfs n ++ head ls ++ rest) = Served r l v ->
  serve B' ans' (crlfs n' ++ head ls' ++ rest') = Served r' l' v' -> r = r'.
Proof.
  intros B ans n ls rest r l v B' ans' n' ls' rest' r' l' v' a b b' L L' T T' Li NE Li' NE' E E'.
  apply served_result in E; auto. apply served_result in E'; auto.
  rewrite T, (parse_nul a b b'), <- T', E' in E. congruence.
Qed.

(** framing *)
Lemma framing_spec : forall m u p hs,
  (last_value (bs "transfer-encoding") hs (Some (bs "chunked")) ->
     framing (headers (put_fields (started m u p) hs)) = Chunked) /\
  (forall te l x, last_value (bs "transfer-encoding") hs te -> te <> Some (bs "chunked") ->
     last_value (bs "content-length") hs (Some l) -> decimal l x -> (x < 2 ^ 63)%Z ->
     framing (headers (put_fields (started m u p) hs)) = Length x) /\
  (forall te, last_value (bs "transfer-encoding") hs te -> te <> Some (bs "chunked") ->
     last_value (bs "content-length") hs None ->
     framing (headers (put_fields (started m u p) hs)) = NoBody).
Proof.
  intros m u p hs. unfold framing. split; [|split].
  - intro H. rewrite (started_get m u p _ _ _ H), beq_refl. reflexivity.
  - intros te l x H N C D L. rewrite (started_get m u p _ _ _ H), (started_get m u p _ _ _ C).
    rewrite (strtoll_decimal _ _ D L). destruct te as [v|]; auto.
    destruct (beq v (bs "chunked")) eqn:B; auto. apply beq_eq in B. congruence.
  - intros te H N C. rewrite (started_get m u p _ _ _ H), (started_get m u p _ _ _ C).
    destruct te as [v|]; auto. destruct (beq v (bs "chunked")) eqn:B; auto. apply beq_eq in B. congruence.
Qed.
Lemma served_fields : forall B ans n m u p hs ls rest r l v, let l1 := m ++ 32%N :: u ++ 32%N :: p in
  ~ In 32%N m -> ~ In 32%N u -> fields_of hs ls -> lines_ok (l1 :: ls) ->
  List.length (crlfs n ++ head (l1 :: ls)) <= B - B / 4 -> ~ In Eof ans ->
  serve B ans (crlfs n ++ head (l1 :: ls) ++ rest) = Served r l v ->
  conclude (put_fields (started m u p) hs) = Done r.
Proof.
  intros B ans n m u p hs ls rest r l v l1 A1 A2 F O Lim NE E.
  apply served_result in E; auto; [|apply (ok_lines _ hs); auto; apply line1_nonempty].
  unfold l1 in E. rewrite (parse_fields m u p hs ls A1 A2 F O) in E. exact E.
Qed.
Lemma conclude_inv : forall s r, conclude s = Done r -> exists m u p e, line1 s = Some (m, u, p) /\
  r = mkrequest m u p (method_enum m) (protocol_enum p) (headers s) (gzip s) (deflate s) (lz4f s) (framing (headers s)) e.
Proof.
  intros s r. unfold conclude. destruct (line1 s) as [[[m u] p]|]; [|discriminate].
  destruct (hget (headers s) (bs "expect")).
  - destruct (negb _ || _)%bool; [discriminate|]. intro E. injection E as <-. exists m, u, p, true. auto.
  - intro E. injection E as <-. exists m, u, p, false. auto.
Qed.

Lemma body_of : forall B ans n m u p hs ls rest r l v, let l1 := m ++ 32%N :: u ++ 32%N :: p in
  ~ In 32%N m -> ~ In 32%N u -> fields_of hs ls -> lines_ok (l1 :: ls) ->
  List.length (crlfs n ++ head (l1 :: ls)) <= B - B / 4 -> ~ In Eof ans ->
  serve B ans (crlfs n ++ head (l1 :: ls) ++ rest) = Served r l v ->
  (last_value (bs "transfer-encoding") hs (Some (bs "chunked")) -> payload r = Chunked) /\
  (forall te c x, last_value (bs "transfer-encoding") hs te -> te <> Some (bs "chunked") ->
     last_value (bs "content-length") hs (Some c) -> decimal c x -> (x < 2 ^ 63)%Z -> payload r = Length x) /\
  (forall te, last_value (bs "transfer-encoding") hs te -> te <> Some (bs "chunked") ->
     last_value (bs "content-length") hs None -> payload r = NoBody).
Proof.
  intros B ans n m u p hs ls rest r l v l1 A1 A2 F O Lim NE E. apply (served_fields B ans n m u p hs ls rest r l v) in E; auto.
  apply conclude_inv in E as (m' & u' & p' & e & _ & ->). cbn [payload]. apply framing_spec.
Qed.

(** Expect *)
Lemma expect_ok : forall B ans n m u p hs ls rest x, let l1 := m ++ 32%N :: u ++ 32%N :: p in
  ~ In 32%N m -> ~ In 32%N u -> fields_of hs ls -> lines_ok (l1 :: ls) ->
  List.length (crlfs n ++ head (l1 :: ls)) <= B - B / 4 -> ~ In Eof ans ->
  List.length (crlfs n ++ head (l1 :: ls)) <= readies ans ->
  last_value (bs "expect") hs (Some x) ->
  (exists r l v, serve B ans (crlfs n ++ head (l1 :: ls) ++ rest) = Served r l v /\ expects r = true
     /\ (exists y, x = bs "100-" ++ y)
     /\ (last_value (bs "transfer-encoding") hs (Some (bs "chunked")) \/ exists c, last_value (bs "content-length") hs (Some c)))
  \/ (serve B ans (crlfs n ++ head (l1 :: ls) ++ rest) = Closed
     /\ ((forall y, x <> bs "100-" ++ y) \/
         (last_value (bs "content-length") hs None /\ ~ last_value (bs "transfer-encoding") hs (Some (bs "chunked"))))).
Proof.
  intros B ans n m u p hs ls rest x l1 A1 A2 F O Lim NE Rd Ex.
  pose proof (serve_fields B ans n m u p hs ls rest A1 A2 F O Lim NE Rd) as H. fold l1 in H.
  unfold conclude in H. rewrite put_fields_line1 in H. cbn [started line1] in H.
  fold (started m u p) in H. rewrite (started_get m u p _ _ _ Ex) in H.
  assert (Fr : forall y, beq (firstn 4 y) (bs "100-") = true <-> exists z, y = bs "100-" ++ z).
  { intro y. rewrite beq_eq. split.
    - intro Q. exists (skipn 4 y). rewrite <- Q. symmetry. apply firstn_skipn.
    - intros [z ->]. reflexivity. }
  destruct (last_value_total (bs "transfer-encoding") hs) as [te T].
  destruct (last_value_total (bs "content-length") hs) as [cl C].
  pose proof (started_get m u p _ _ _ T) as T'. pose proof (started_get m u p _ _ _ C) as C'.
  assert (Fm : framing (headers (put_fields (started m u p) hs)) = NoBody <-> cl = None /\ te <> Some (bs "chunked")).
  { unfold framing. rewrite T', C'. destruct te as [t|].
    - destruct (beq t (bs "chunked")) eqn:Q.
      + apply beq_eq in Q as ->. split; [discriminate|]. intros [_ X]. contradiction.
      + apply beq_neq in Q. destruct cl; split; try discriminate; intuition congruence.
    - destruct cl; split; try discriminate; intuition congruence. }
  destruct (beq (firstn 4 x) (bs "100-")) eqn:Q; cbn [negb orb] in H.
  - destruct (framing (headers (put_fields (started m u p) hs))) eqn:Fr2.
    + right. split; auto. right. destruct (proj1 Fm eq_refl) as [-> Nt]. split; auto.
      intro X. apply Nt. rewrite <- T'. apply started_get. exact X.
    + left. destruct H as (l & v & E & _). eexists _, l, v. split; [exact E|]. split; [reflexivity|]. split; [apply Fr; exact Q|].
      destruct te as [t|].
      * destruct (list_eq_dec N.eq_dec t (bs "chunked")) as [->|Nt]; auto. right.
        destruct cl as [c|]; eauto. exfalso. assert (Chunked = NoBody) by (apply Fm; split; congruence). discriminate.
      * right. destruct cl as [c|]; eauto. exfalso. assert (Chunked = NoBody) by (apply Fm; split; congruence). discriminate.
    + left. destruct H as (l & v & E & _). eexists _, l, v. split; [exact E|]. split; [reflexivity|]. split; [apply Fr; exact Q|].
      destruct te as [t|].
      * destruct (list_eq_dec N.eq_dec t (bs "chunked")) as [->|Nt]; auto. right.
        destruct cl as [c|]; eauto. exfalso. assert (Length n0 = NoBody) by (apply Fm; split; congruence). discriminate.
      * right. destruct cl as [c|]; eauto. exfalso. assert (Length n0 = NoBody) by (apply Fm; split; congruence). discriminate.
  - right. split; auto. left. intros y X. assert (exists z, x = bs "100-" ++ z) by eauto. apply Fr in H0. congruence.
Qed.

(** method and protocol *)
Lemma method_spec : forall s,
  (method_enum s = GET <-> same_word s (bs "GET") /\ exists r, s = 71%N :: r) /\
  (method_enum s = HEAD <-> same_word s (bs "HEAD") /\ exists r, s = 72%N :: r) /\
  (method_enum s = POST <-> same_word s (bs "POST") /\ exists r, s = 80%N :: r).
Proof.
  intro s. destruct s as [|c r].
  { repeat split; try discriminate; intros [_ [x X]]; discriminate. }
  destruct (N.eq_dec c 71) as [->|N1]; [|destruct (N.eq_dec c 72) as [->|N2]; [|destruct (N.eq_dec c 80) as [->|N3]]].
  - change (method_enum (71%N :: r)) with (if caseeq (71%N :: r) (bs "GET") then GET else OTHER).
    pose proof (caseeq_iff (71%N :: r) (bs "GET")) as C. destruct (caseeq _ _).
    + split; [|split]; (split; [try discriminate|]); try (intros [_ [x X]]; discriminate).
      * intros _. split; [apply C; reflexivity|eauto]. * reflexivity.
    + split; [|split]; (split; [discriminate|]); try (intros [_ [x X]]; discriminate).
      intros [X _]. apply C in X. discriminate.
  - change (method_enum (72%N :: r)) with (if caseeq (72%N :: r) (bs "HEAD") then HEAD else OTHER).
    pose proof (caseeq_iff (72%N :: r) (bs "HEAD")) as C. destruct (caseeq _ _).
    + split; [|split]; (split; [try discriminate|]); try (intros [_ [x X]]; discriminate).
      * intros _. split; [apply C; reflexivity|eauto]. * reflexivity.
    + split; [|split]; (split; [discriminate|]); try (intros [_ [x X]]; discriminate).
      intros [X _]. apply C in X. discriminate.
  - change (method_enum (80%N :: r)) with (if caseeq (80%N :: r) (bs "POST") then POST else OTHER).
    pose proof (caseeq_iff (80%N :: r) (bs "POST")) as C. destruct (caseeq _ _).
    + split; [|split]; (split; [try discriminate|]); try (intros [_ [x X]]; discriminate).
      * intros _. split; [apply C; reflexivity|eauto]. * reflexivity.
    + split; [|split]; (split; [discriminate|]); try (intros [_ [x X]]; discriminate).
      intros [X _]. apply C in X. discriminate.
  - assert (X : method_enum (c :: r) = OTHER).
    { unfold method_enum. destruct c as [|c]; auto.
      do 7 (destruct c as [c|c|]; try reflexivity; try (exfalso; congruence)). }
    rewrite X. split; [|split]; (split; [discriminate|]); intros [_ [x Y]]; congruence.
Qed.
Lemma protocol_spec : forall s,
  (protocol_enum s = HTTP11 <-> same_word s (bs "HTTP/1.1")) /\
  (protocol_enum s = HTTP10 <-> same_word s (bs "HTTP/1.0")).
Proof.
  intro s. unfold protocol_enum. pose proof (caseeq_iff s (bs "HTTP/1.1")) as A. pose proof (caseeq_iff s (bs "HTTP/1.0")) as B.
  destruct (caseeq s (bs "HTTP/1.1")) eqn:E1.
  - split; [tauto|]. split; [discriminate|]. intro X. exfalso. apply B in X.
    unfold caseeq in *. apply beq_eq in E1. apply beq_eq in X. rewrite E1 in X. discriminate.
  - destruct (caseeq s (bs "HTTP/1.0")) eqn:E2.
    + split; [|tauto]. split; [discriminate|]. intro X. apply A in X. discriminate.
    + split; (split; [discriminate|]); intro X; [apply A in X|apply B in X]; discriminate.
Qed.
Lemma served_enums : forall B ans n m u p hs ls rest r l v, let l1 := m ++ 32%N :: u ++ 32%N :: p in
  ~ In 32%N m -> ~ In 32%N u -> fields_of hs ls -> lines_ok (l1 :: ls) ->
  List.length (crlfs n ++ head (l1 :: ls)) <= B - B / 4 -> ~ In Eof ans ->
  serve B ans (crlfs n ++ head (l1 :: ls) ++ rest) = Served r l v ->
  (method r = GET <-> same_word m (bs "GET") /\ exists x, m = 71%N :: x) /\
  (method r = HEAD <-> same_word m (bs "HEAD") /\ exists x, m = 72%N :: x) /\
  (method r = POST <-> same_word m (bs "POST") /\ exists x, m = 80%N :: x) /\
  (protocol r = HTTP11 <-> same_word p (bs "HTTP/1.1")) /\
  (protocol r = HTTP10 <-> same_word p (bs "HTTP/1.0")).
Proof.
  intros B ans n m u p hs ls rest r l v l1 A1 A2 F O Lim NE E. apply (served_fields B ans n m u p hs ls rest r l v) in E; auto.
  apply conclude_inv in E as (m' & u' & p' & e & X & ->). rewrite put_fields_line1 in X. cbn in X. injection X as <- <- <-.
  cbn [method protocol]. destruct (method_spec m) as (G & H & P). destruct (protocol_spec p) as (P1 & P0). tauto.
Qed.

(** a line over two blocks, in terms of lines *)
Lemma one_line_tail : forall t u, one_line (t ++ u) -> one_line u.
Proof. intros t u O a b ->. apply (O (t ++ a) b). rewrite <- app_assoc. reflexivity. Qed.
Lemma text_ends : forall ps, ps <> [] -> exists q, text ps = q ++ [13%N; 10%N].
Proof.
  intros ps N. destruct (exists_last N) as (a & l & ->). exists (text a ++ l). rewrite text_app. cbn [text].
  rewrite <- app_assoc. reflexivity.
Qed.
Lemma crossing_head : forall B ps t u qs, let d1 := text ps ++ t in let d2 := u ++ 13%N :: 10%N :: head qs in
  lines (ps ++ (t ++ u) :: qs) -> ps <> [] -> 4 <= List.length (text ps) -> ~ In 10%N t -> t <> [] ->
  List.length d1 <= B -> List.length d2 <= B -> B - List.length d1 < B / 4 ->
  head (ps ++ (t ++ u) :: qs) = d1 ++ d2 /\
  (B < List.length t + List.length u + 2 -> serve B (two_reads d1 d2 0) (d1 ++ d2) = Closed) /\
  (List.length t + List.length u + 2 <= B -> List.length t < List.length u + 2 ->
     serve B (two_reads d1 d2 0) (d1 ++ d2) = Undefined) /\
  (List.length u + 2 <= List.length t -> qs = [] -> serve B (two_reads d1 d2 0) (d1 ++ d2) = Closed).
Proof.
  intros B ps t u qs d1 d2 L Np L4 N Ne L1 L2 Sp.
  assert (E : head (ps ++ (t ++ u) :: qs) = d1 ++ d2).
  { subst d1 d2. unfold head. rewrite text_app. cbn [text]. rewrite <- !app_assoc. reflexivity. }
  split; [exact E|]. pose proof (lines_whole _ L) as W. rewrite E in W.
  destruct (text_ends _ Np) as [q Eq]. subst d1 d2. rewrite Eq in *.
  assert (O : one_line u).
  { destruct L as [_ F]. apply Forall_app in F as [_ F]. inversion F as [|? ? [O _] _]; subst. eapply one_line_tail; eauto. }
  destruct (crossing_line B q t u (head qs) W N Ne O) as (A & C & D); auto.
  - unfold head. rewrite app_length. cbn. lia.
  - rewrite app_length in L4. cbn in L4. lia.
  - split; [intro; apply A; lia|]. split; [intros; apply C; lia|].
    intros H1 ->. apply D; auto.
Qed.
