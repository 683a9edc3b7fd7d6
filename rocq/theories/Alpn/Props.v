(** Theorems about the choice of a protocol: C172 to C176. *)
From Coq Require Import List NArith ZArith Arith Bool Lia ZifyBool ZifyNat ZifyN.
From Verif Require Import Alpn.Model Alpn.Spec Alpn.Proofs Alpn.Proofs2.
Import ListNotations.
Local Open Scope nat_scope.

(** "h2", "http/1.1" and "spdy/3.1". *)
Definition h2 : list N := [104;50]%N.
Definition http11 : list N := [104;116;116;112;47;49;46;49]%N.
Definition spdy31 : list N := [115;112;100;121;47;51;46;49]%N.

(** A context with a matcher for http/1.1, as mtev_http1.c makes it, and h2
    without a function. *)
Definition demo : ctx :=
  register (register (Ctx [] [] None) http11 (Some (matcher http11))) h2 None.

(** "h2,,foo,http/1.1". *)
Definition conf : list N := h2 ++ [44;44;102;111;111;44]%N ++ http11.

(** * C172 *)

Theorem C172_advertise : forall c s, exists ps,
  npn (advertise c (Some s)) = match ps with [] => None | _ => Some (wire ps) end /\
  sub ps (filter (known c) (names s)) /\
  length (wire ps) <= 254 /\ length (wire ps) <= length s + 1 /\
  (length (wire (filter (known c) (names s))) <= 254 ->
   ps = filter (known c) (names s)) /\
  (ps = [] -> forall p, In p (names s) -> known c p = true -> 254 <= length p).
Proof. exact advertise_spec. Qed.

Example C172_advertise_ex :
  names conf = [h2; [102;111;111]%N; http11] /\
  npn (advertise demo (Some conf)) = Some (wire [h2; http11]).
Proof. vm_compute. auto. Qed.

Theorem C172_register : forall c name f p,
  (retrieve (own c) p = None ->
   lookup (register c name f) p =
   if list_eq_dec N.eq_dec name p
   then Some (match f with Some g => g | None => always end) else lookup c p) /\
  (forall g, retrieve (own c) p = Some g -> lookup (register c name f) p = Some g) /\
  lookup (ctx_register c name f) p =
  (if list_eq_dec N.eq_dec name p
   then Some (match f with Some g => g | None => always end) else lookup c p).
Proof.
  intros c name f p.
  assert (E : forall (A : Type) (x y : A),
    (if same name p then x else y) = (if list_eq_dec N.eq_dec name p then x else y)).
  { intros A x y. destruct (list_eq_dec N.eq_dec name p) as [->|X].
    - now rewrite same_refl.
    - destruct (same name p) eqn:Y; auto. apply same_eq in Y. contradiction. }
  rewrite lookup_register, lookup_ctx_register. rewrite <- !E. split; [|split; auto].
  - now intros ->.
  - now intros g ->.
Qed.

Example C172_register_ex :
  retrieve (own demo) h2 = None /\
  lookup (ctx_register demo h2 (Some (matcher h2))) h2 = Some (matcher h2) /\
  lookup (register (ctx_register demo h2 (Some (matcher h2))) h2 None) h2 =
    Some (matcher h2).
Proof. repeat split. Qed.

Theorem C172_off : forall c inn,
  (npn c = None -> select c inn = NoAck /\ next_proto c = None) /\
  npn (advertise c None) = None.
Proof.
  intros c inn. split; [|reflexivity]. intro H. unfold select, next_proto. now rewrite H.
Qed.

Example C172_off_ex : npn (advertise demo (Some [102;111;111]%N)) = None.
Proof. reflexivity. Qed.

(** * C173 *)

Theorem C173_select : forall c ps,
  valid ps -> npn c <> None ->
  select c (wire ps) = verdict (asked c [] ps) (wire ps).
Proof. intros c ps _ H. now apply select_spec. Qed.

Example C173_select_ex :
  valid [http11; h2] /\ npn (advertise demo (Some conf)) <> None /\
  asked (advertise demo (Some conf)) [] [http11; spdy31; h2] =
    [matcher http11; matcher http11; always] /\
  select (advertise demo (Some conf)) (wire [http11; h2]) = Ok (Some (1, 8)).
Proof. vm_compute. repeat split; try discriminate; repeat constructor. Qed.

Theorem C173_offered : forall c ps o,
  valid ps -> (forall p f, In p ps -> lookup c p = Some f -> honest f) ->
  select c (wire ps) = Ok o ->
  exists x p, o = Some x /\ picks ps x p.
Proof. exact select_offered. Qed.

Theorem C173_honest : honest always /\
  forall key, length key < 256 -> honest (matcher key).
Proof. split; [exact always_honest|exact matcher_honest]. Qed.

Example C173_honest_ex :
  matcher http11 (wire [h2; http11]) = (1%Z, Some (4, 8)) /\
  picks [h2; http11] (4, 8) http11.
Proof. split; [reflexivity|]. exists [h2], []. repeat split. Qed.

Example C173_offered_ex :
  valid [h2; http11] /\
  (forall p f, In p [h2; http11] -> lookup demo p = Some f -> honest f) /\
  select (advertise demo (Some conf)) (wire [h2; http11]) = Ok (Some (1, 2)) /\
  picks [h2; http11] (1, 2) h2.
Proof.
  split; [repeat constructor|]. split.
  - intros p f [<-|[<-|[]]] E; injection E as <-;
      [exact always_honest|apply matcher_honest; vm_compute; lia].
  - split; [reflexivity|]. exists [], [http11]. repeat split.
Qed.

(** * C174 *)

(** With h2 registered without a function, a client that offers spdy/3.1 and h2
    gets spdy/3.1. *)
Theorem C174_refuted : ~ C174_full.
Proof.
  intro H.
  destruct (H (register (Ctx [] [] None) h2 None) [spdy31; h2] h2 (1, 8))
    as (p & (a & b & E & F & _) & K & _).
  - intros p f X. unfold lookup in X. cbn [own shared register retrieve] in X.
    destruct (same h2 p); [|discriminate]. injection X as <-. now left.
  - repeat constructor.
  - reflexivity.
  - destruct a as [|q a].
    + injection E as <- _. discriminate K.
    + cbn [fst] in F. rewrite wire_cons in F. cbn [length] in F.
      rewrite app_length in F. injection E as <- _. cbn [length spdy31] in F. lia.
Qed.

(** With the matcher of http/1.1, a client that offers spdy/3.1 and http/1.1
    gets spdy/3.1. *)
Theorem C174_matcher_refuted :
  let c := register (Ctx [] [] None) http11 (Some (matcher http11)) in
  stock c /\ known c spdy31 = false /\
  select (advertise c (Some http11)) (wire [spdy31; http11]) = Ok (Some (1, 8)) /\
  picks [spdy31; http11] (1, 8) spdy31.
Proof.
  cbv zeta. split; [|repeat split].
  - intros p f X. unfold lookup in X. cbn [own shared register retrieve] in X.
    destruct (same http11 p) eqn:E; [|discriminate]. apply same_eq in E. subst p.
    injection X as <-. now right.
  - exists [], [http11]. repeat split.
Qed.

(** A name that is known but was not advertised is chosen. *)
Theorem C174_unadvertised_refuted :
  known demo h2 = true /\ ~ In h2 (names http11) /\
  select (advertise demo (Some http11)) (wire [h2]) = Ok (Some (1, 2)) /\
  picks [h2] (1, 2) h2.
Proof.
  split; [reflexivity|]. split.
  - vm_compute. intros [X|[]]. discriminate X.
  - split; [reflexivity|]. exists [], []. repeat split.
Qed.

(** Without functions, the first name offered is chosen, if any is known. *)
Theorem C174_always_partial : forall c p ps,
  npn c <> None -> (forall q f, lookup c q = Some f -> f = always) ->
  select c (wire (p :: ps)) =
  if existsb (known c) (p :: ps) then Ok (Some (1, length p)) else NoAck.
Proof. exact select_always. Qed.

Example C174_always_partial_ex :
  let c := advertise (register (Ctx [] [] None) h2 None) (Some h2) in
  npn c <> None /\ (forall q f, lookup c q = Some f -> f = always) /\
  existsb (known c) [h2; spdy31] = true.
Proof.
  cbv zeta. split; [discriminate|]. split; [|reflexivity].
  intros q f X. unfold lookup in X. cbn [own shared register advertise retrieve] in X.
  destruct (same h2 q); congruence.
Qed.

(** * C175 *)

Theorem C175_refuted : ~ C175_full.
Proof.
  intro H.
  destruct (H (register (Ctx [] [] None) http11 (Some (matcher http11))) http11)
    as (o & X & _).
  - cbn. lia.
  - vm_compute. intuition discriminate.
  - reflexivity.
  - discriminate X.
Qed.

(** A matcher passes whenever its own name is the first one offered. *)
Theorem C175_first_lost : forall key ps,
  length key < 256 -> matcher key (wire (key :: ps)) = (0%Z, None).
Proof. intros key ps H. now apply (matcher_blind key (key :: ps) (wire ps)). Qed.

Example C175_first_lost_ex : matcher http11 (wire [http11; h2]) = (0%Z, None).
Proof. reflexivity. Qed.

(** What a matcher does: it passes if what is offered begins with its name or if
    no name is as long; else it chooses the first name that is as long. *)
Theorem C175_matcher_partial : forall key ps,
  length key < 256 -> valid ps ->
  ((exists r, skipn 1 (wire ps) = key ++ r) -> matcher key (wire ps) = (0%Z, None)) /\
  (Forall (fun p => length p <> length key) ps -> matcher key (wire ps) = (0%Z, None)) /\
  (forall u p v,
     ps = u ++ p :: v -> Forall (fun q => length q <> length key) u ->
     length p = length key -> (forall r, skipn 1 (wire ps) <> key ++ r) ->
     matcher key (wire ps) = (1%Z, Some (length (wire u) + 1, length p))).
Proof.
  intros key ps Hk _. split; [|split].
  - intros [r R]. now apply (matcher_blind key ps r).
  - intro H. now apply matcher_none.
  - intros u p v -> U P D. rewrite P. now apply matcher_wrong.
Qed.

Example C175_matcher_partial_ex :
  valid [h2; http11] /\ Forall (fun q => length q <> length http11) [h2] /\
  (forall r, skipn 1 (wire [h2; http11]) <> http11 ++ r).
Proof.
  split; [repeat constructor|]. split; [repeat constructor; discriminate|].
  intros r X. discriminate X.
Qed.

(** * C176 *)

Theorem C176_refuted : ~ C176_full.
Proof.
  intro H. specialize (H demo conf ltac:(discriminate) ltac:(vm_compute; lia)).
  discriminate H.
Qed.

Theorem C176_first_partial : forall c s p ps,
  npn (advertise c (Some s)) = Some (wire (p :: ps)) ->
  next_proto (advertise c (Some s)) = Some (wire [p]).
Proof. exact next_first. Qed.

Example C176_first_partial_ex :
  npn (advertise demo (Some conf)) = Some (wire [h2; http11]).
Proof. reflexivity. Qed.

Print Assumptions C172_advertise.
Print Assumptions C172_register.
Print Assumptions C172_off.
Print Assumptions C173_select.
Print Assumptions C173_offered.
Print Assumptions C173_honest.
Print Assumptions C174_refuted.
Print Assumptions C174_matcher_refuted.
Print Assumptions C174_unadvertised_refuted.
Print Assumptions C174_always_partial.
Print Assumptions C175_refuted.
Print Assumptions C175_first_lost.
Print Assumptions C175_matcher_partial.
Print Assumptions C176_refuted.
Print Assumptions C176_first_partial.
