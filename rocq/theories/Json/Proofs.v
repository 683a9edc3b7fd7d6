(** The parser as a machine that reads one character at a time: the tight loops
    and the passes of the switch are folded into one step per character. *)
From Coq Require Import NArith ZArith List Bool Lia ZifyBool ZifyNat ZifyN.
From Verif Require Import Json.Model.
Import ListNotations.
Local Open Scope N_scope.

Inductive dres := DN (t : tok) | DR (t : tok) (obj : jv) | DS (t : tok) | DB | DT.

Definition ret_done (t : tok) (v : jv) : tok :=
  set_state (set_saved (set_current t v) S_finish) S_eatws.

Definition dswitch (e : env) (t : tok) (obj : jv) (c : N) : dres :=
  match state (top t) with
  | S_eatws =>
      if isspace c then DN t
      else if c =? 47 then DN (set_state (set_pb t [c]) S_comment_start)
      else DR (set_state t (saved (top t))) obj
  | S_start =>
      if c =? 123 then
        DN (set_current (set_saved (set_state t S_eatws) S_object_field_start) (JObj []))
      else if c =? 91 then
        DN (set_current (set_saved (set_state t S_eatws) S_array) (JArr []))
      else if (c =? 78) || (c =? 110) then
        DR (set_pos (set_pb (set_state t S_null) []) 0) obj
      else if (c =? 34) || (c =? 39) then
        DN (set_quote (set_pb (set_state t S_string) []) c)
      else if (c =? 84) || (c =? 116) || (c =? 70) || (c =? 102) then
        DR (set_pos (set_pb (set_state t S_boolean) []) 0) obj
      else if ((48 <=? c) && (c <=? 57)) || (c =? 45) then
        DR (set_double (set_pb (set_state t S_number) []) false) obj
      else DS (set_err t E_unexpected)
  | S_finish =>
      match below t with
      | [] => DS t
      | f :: fs =>
          DR (mkt f fs (pb t) (is_double t) (st_pos t) (ucs_char t) (quote_char t) (err t) (started t))
               (current (top t))
      end
  | S_null =>
      let t := append t [c] in
      if casecmp (Nat.min (st_pos t + 1) 4) null_str (pb t) then
        if Nat.eqb (st_pos t) 4 then DR (ret_done t JNull) obj
        else DN (set_pos t (S (st_pos t)))
      else DS (set_err t E_null)
  | S_comment_start =>
      if c =? 42 then DN (append (set_state t S_comment) [c])
      else if c =? 47 then DN (append (set_state t S_comment_eol) [c])
      else DS (set_err t E_comment)
  | S_comment =>
      if c =? 42 then DN (set_state (append t [c]) S_comment_end) else DN (append t [c])
  | S_comment_eol =>
      if c =? 10 then DN (set_state (append t []) S_eatws) else DN (append t [c])
  | S_comment_end =>
      let t := append t [c] in
      if c =? 47 then DN (set_state t S_eatws) else DN (set_state t S_comment)
  | S_string =>
      if (c =? quote_char t) || (c =? 92) then
        if c =? quote_char t then
          DN (ret_done (append t []) (JStr (cstr (pb (append t [])))))
        else DN (set_state (set_saved (append t []) S_string) S_string_escape)
      else DN (append t [c])
  | S_string_escape =>
      if (c =? 34) || (c =? 92) || (c =? 47) then DN (set_state (append t [c]) (saved (top t)))
      else if c =? 98 then DN (set_state (append t [8]) (saved (top t)))
      else if c =? 110 then DN (set_state (append t [10]) (saved (top t)))
      else if c =? 114 then DN (set_state (append t [13]) (saved (top t)))
      else if c =? 116 then DN (set_state (append t [9]) (saved (top t)))
      else if c =? 117 then DN (set_state (set_pos (set_ucs t 0) 0) S_escape_unicode)
      else DS (set_err t E_string)
  | S_escape_unicode =>
      if hex_or_nul c then
        let u := (ucs_char t + N.shiftl (hexdigit c) (N.of_nat ((3 - st_pos t) * 4))) mod 4294967296 in
        let t := set_pos (set_ucs t u) (S (st_pos t)) in
        if Nat.eqb (st_pos t) 4 then
          let t := append t (utf_out (ucs_char t)) in
          DN (set_state t (saved (top t)))
        else DN t
      else DS (set_err t E_string)
  | S_boolean =>
      let t := append t [c] in
      if casecmp (Nat.min (st_pos t + 1) 4) true_str (pb t) then
        if Nat.eqb (st_pos t) 4 then DR (ret_done t (JBool true)) obj
        else DN (set_pos t (S (st_pos t)))
      else if casecmp (Nat.min (st_pos t + 1) 5) false_str (pb t) then
        if Nat.eqb (st_pos t) 5 then DR (ret_done t (JBool false)) obj
        else DN (set_pos t (S (st_pos t)))
      else DS (set_err t E_boolean)
  | S_number =>
      if (c =? 0) || negb (number_char c) then
        let t := append (set_double t (is_double t || false)) [] in
        match number_object e (is_double t) (pb t) with
        | Some v => DR (ret_done t v) obj
        | None => DS (set_err t E_number)
        end
      else DN (append (set_double t (is_double t || ((c =? 46) || (c =? 101)))) [c])
  | S_array =>
      if c =? 93 then DN (set_state (set_saved t S_finish) S_eatws)
      else if Nat.leb (MAX_DEPTH - 1) (depth t) then DS (set_err t E_depth)
      else
        let t := set_state t S_array_add in
        DR (mkt fresh (top t :: below t) (pb t) (is_double t) (st_pos t) (ucs_char t)
                (quote_char t) (err t) (started t)) obj
  | S_array_add =>
      match current (top t) with
      | JArr l => DR (set_state (set_saved (set_current t (JArr (l ++ [obj]))) S_array_sep) S_eatws) obj
      | _ => DB
      end
  | S_array_sep =>
      if c =? 93 then DN (set_state (set_saved t S_finish) S_eatws)
      else if c =? 44 then DN (set_state (set_saved t S_array) S_eatws)
      else DS (set_err t E_array)
  | S_object_field_start =>
      if c =? 125 then DN (set_state (set_saved t S_finish) S_eatws)
      else if (c =? 34) || (c =? 39) then
        DN (set_state (set_pb (set_quote t c) []) S_object_field)
      else DS (set_err t E_key_name)
  | S_object_field =>
      if (c =? quote_char t) || (c =? 92) then
        if c =? quote_char t then
          DN (set_state (set_saved (set_field (append t []) (Some (cstr (pb (append t []))))) S_object_field_end) S_eatws)
        else DN (set_state (set_saved (append t []) S_object_field) S_string_escape)
      else DN (append t [c])
  | S_object_field_end =>
      if c =? 58 then DN (set_state (set_saved t S_object_value) S_eatws)
      else DS (set_err t E_key_sep)
  | S_object_value =>
      if Nat.leb (MAX_DEPTH - 1) (depth t) then DS (set_err t E_depth)
      else
        let t := set_state t S_object_value_add in
        DR (mkt fresh (top t :: below t) (pb t) (is_double t) (st_pos t) (ucs_char t)
                (quote_char t) (err t) (started t)) obj
  | S_object_value_add =>
      match current (top t), field_name (top t) with
      | JObj l, Some k =>
          DR (set_state (set_saved (set_field (set_current t (JObj (object_add l k obj))) None)
                             S_object_sep) S_eatws) obj
      | _, _ => DB
      end
  | S_object_sep =>
      if c =? 125 then DN (set_state (set_saved t S_finish) S_eatws)
      else if c =? 44 then DN (set_state (set_saved t S_object_field_start) S_eatws)
      else DS (set_err t E_value_sep)
  end.

Fixpoint dredo (n : nat) (e : env) (t : tok) (obj : jv) (c : N) : dres :=
  match n with
  | 0%nat => DT
  | S n' =>
      match dswitch e t obj c with
      | DR t obj => dredo n' e t obj c
      | x => x
      end
  end.

Definition delta (e : env) (t : tok) (c : N) : dres := dredo 12 e t JNull c.

Fixpoint drun (e : env) (bnd : bool) (t : tok) (inp : bytes) : result :=
  match inp with
  | [] => finish_parse (pop_fail bnd t 1)
  | c :: r =>
      match delta e t c with
      | DN t' => if c =? 0 then finish_parse (Out t' 0 r) else drun e bnd t' r
      | DS t' => finish_parse (Out t' c (c :: r))
      | _ => Wrong
      end
  end.

(** * The invariant *)

(** The states eatws goes on to. *)
Definition resume (s : tstate) : Prop :=
  s = S_start \/ s = S_finish \/ s = S_array \/ s = S_array_sep \/ s = S_object_field_start
  \/ s = S_object_field_end \/ s = S_object_value \/ s = S_object_sep.

Definition is_arr (v : jv) : Prop := exists l, v = JArr l.
Definition is_obj (v : jv) : Prop := exists l, v = JObj l.

Definition typed (s : tstate) (f : frame) : Prop :=
  match s with
  | S_array | S_array_add | S_array_sep => is_arr (current f)
  | S_object_field_start | S_object_field | S_object_sep => is_obj (current f)
  | S_object_field_end | S_object_value | S_object_value_add =>
      is_obj (current f) /\ field_name f <> None
  | _ => True
  end.

Definition frame_ok (t : tok) : Prop :=
  let f := top t in
  match state f with
  | S_eatws | S_comment_start | S_comment | S_comment_eol | S_comment_end =>
      resume (saved f) /\ typed (saved f) f
  | S_string_escape => (saved f = S_string \/ saved f = S_object_field) /\ typed (saved f) f
  | S_escape_unicode =>
      (saved f = S_string \/ saved f = S_object_field) /\ typed (saved f) f /\ (st_pos t < 4)%nat
  | s => typed s f
  end.

Definition waiting (f : frame) : Prop :=
  (state f = S_array_add /\ is_arr (current f)) \/
  (state f = S_object_value_add /\ is_obj (current f) /\ field_name f <> None).

Definition Inv (t : tok) : Prop :=
  frame_ok t /\ Forall waiting (below t) /\ (depth t < MAX_DEPTH)%nat.

Definition resting (t : tok) : Prop :=
  state (top t) <> S_array_add /\ state (top t) <> S_object_value_add.

Definition rank_of (s : tstate) : nat :=
  match s with
  | S_array | S_object_value => 8
  | S_start => 6
  | S_null | S_boolean | S_number => 5
  | S_finish => 3
  | S_array_add | S_object_value_add => 2
  | _ => 0
  end.
Definition rank (t : tok) : nat :=
  match state (top t) with S_eatws => S (rank_of (saved (top t))) | s => rank_of s end.

Lemma rank_bound : forall t, (rank t < 10)%nat.
Proof.
  intros t. unfold rank. destruct (state (top t)); cbn; try lia.
  destruct (saved (top t)); cbn; lia.
Qed.

Lemma new_inv : Inv tok_new.
Proof.
  unfold Inv, frame_ok, tok_new, fresh, depth, MAX_DEPTH. cbn.
  split; [|split]; [unfold resume; tauto|constructor|lia].
Qed.

Ltac step_cases H :=
  repeat (match type of H with
          | context [match ?x with _ => _ end] =>
              lazymatch x with
              | context [match _ with _ => _ end] => fail
              | _ => destruct x eqn:?
              end
          end; try discriminate H).

Ltac inv_tac :=
  unfold Inv, frame_ok, resting, resume, typed, waiting, depth, fresh, ret_done,
    set_top, set_state, set_saved, set_current, set_field, set_pb, set_double, set_pos,
    set_ucs, set_quote, set_err, set_started, append, is_arr, is_obj, MAX_DEPTH in *;
  cbn [top below pb is_double st_pos ucs_char quote_char err started state saved current field_name] in *.

Lemma dswitch_inv : forall e t obj c,
  Inv t ->
  match dswitch e t obj c with
  | DN t' => Inv t' /\ resting t'
  | DR t' _ => Inv t' /\ (rank t' < rank t)%nat
  | DS t' => Inv t'
  | DB | DT => False
  end.
Proof.
  intros e t obj c (F & W & D).
  destruct t as [f fs p db sp uc q er sta]. destruct f as [s sv cu fn].
  unfold dswitch, rank. inv_tac.
  destruct s; inv_tac.
  1: { destruct F as [R T].
       destruct (isspace c). { repeat split; auto; discriminate. }
       destruct (c =? 47). { inv_tac. repeat split; auto; discriminate. }
       inv_tac. unfold rank_of.
       destruct R as [-> |[-> |[-> |[-> |[-> |[-> |[-> | ->]]]]]]]; (split; [split; [|split]|]; auto; cbn; try lia; tauto). }
  2: { destruct fs as [|g gs]; [inv_tac; auto|]. inv_tac.
       pose proof (Forall_inv W) as Wg. pose proof (Forall_inv_tail W) as Wt. cbn in Wg, D.
       destruct g as [gs1 gs2 gc gf]; inv_tac.
       destruct Wg as [[-> A] |(-> & A & B)]; unfold rank_of; (split; [split; [|split]|]; auto; cbn; try lia; tauto). }
  all: repeat match goal with
       | |- context [if ?x then _ else _] => destruct x eqn:?; inv_tac
       end.
  all: try solve [unfold rank_of; repeat split; auto; try discriminate; try tauto; try lia; eauto].
  all: try solve [destruct F as [[-> | ->] T]; unfold rank_of; repeat split; auto; try discriminate; try tauto; try lia; eauto].
  all: try (destruct (number_object e _ _); inv_tac; [split; [split; [|split]|]; auto; cbn; try lia; tauto | auto; fail]).
  all: try (destruct F as [l ->]; inv_tac; split; [split; [|split]|]; eauto; cbn; try lia; try tauto; split; eauto; tauto).
  all: try (destruct F as [[l ->] F]; destruct fn; [|congruence]; inv_tac; split; [split; [|split]|]; eauto; cbn; try lia; try tauto; split; eauto; tauto).
  all: split; [split; [|split]|]; [tauto | constructor; [cbn; tauto|exact W] | cbn; lia | cbn; lia].
Qed.

Lemma dredo_inv : forall n e t obj c,
  Inv t -> (rank t < n)%nat ->
  match dredo n e t obj c with
  | DN t' => Inv t' /\ resting t'
  | DS t' => Inv t'
  | _ => False
  end.
Proof.
  induction n as [|n IH]; intros e t obj c I R; [lia|].
  cbn [dredo]. pose proof (dswitch_inv e t obj c I) as D.
  destruct (dswitch e t obj c) as [t'|t' o|t'| |]; auto.
  destruct D as [I' R']. apply IH; [exact I'|lia].
Qed.

Lemma dredo_more : forall n m e t obj c,
  Inv t -> (rank t < n)%nat -> (rank t < m)%nat -> dredo n e t obj c = dredo m e t obj c.
Proof.
  induction n as [|n IH]; intros m e t obj c I R R2; [lia|].
  destruct m as [|m]; [lia|]. cbn [dredo]. pose proof (dswitch_inv e t obj c I) as D.
  destruct (dswitch e t obj c) as [t'|t' o|t'| |]; auto.
  destruct D as [I' R']. apply IH; [exact I'|lia|lia].
Qed.

(** The object last completed is only used in the states the parser is never
    left in. *)
Lemma dredo_obj : forall n e t o1 o2 c,
  resting t -> Inv t -> dredo n e t o1 c = dredo n e t o2 c.
Proof.
  induction n as [|n IH]; intros e t o1 o2 c Rst I; [reflexivity|].
  cbn [dredo].
  assert (A : (exists x, dswitch e t o1 c = x /\ dswitch e t o2 c = x /\ forall a b, x <> DR a b)
              \/ (exists t', dswitch e t o1 c = DR t' o1 /\ dswitch e t o2 c = DR t' o2 /\ resting t')
              \/ (exists t' o, dswitch e t o1 c = DR t' o /\ dswitch e t o2 c = DR t' o)).
  { assert (Rs : state (top t) = S_eatws -> resume (saved (top t))).
    { destruct I as (F & _ & _). unfold frame_ok in F. intros E. rewrite E in F. apply F. }
    destruct Rst as [N1 N2]. clear I IH.
    destruct t as [f fs p db sp uc q er sta]. destruct f as [s sv cu fn].
    cbn [top state saved] in *. unfold dswitch. cbn [top state saved current below field_name].
    destruct s;
      [ | | destruct fs; [left; eexists; split; [reflexivity|]; split; [reflexivity|discriminate]
                         |right; right; eexists _, _; split; reflexivity]
      | | | | | | | | | | | | elim N1; reflexivity | | | | | | elim N2; reflexivity | ].
    all: repeat match goal with
         | |- context [if ?x then _ else _] => destruct x
         end.
    all: try (left; eexists; split; [reflexivity|]; split; [reflexivity|discriminate]).
    all: try (destruct (number_object e _ _); [|left; eexists; split; [reflexivity|]; split; [reflexivity|discriminate]]).
    all: right; left; eexists; split; [reflexivity|]; split; [reflexivity|].
    all: try (split; discriminate).
    specialize (Rs eq_refl). unfold resting. cbn. clear - Rs. unfold resume in Rs.
    split; intros ->; intuition discriminate. }
  pose proof (dswitch_inv e t o1 c I) as D1.
  destruct A as [(x & -> & -> & N)|[(t' & E1 & -> & R)|(t' & o & E1 & ->)]].
  - reflexivity.
  - rewrite E1 in *. apply IH; [exact R|apply D1].
  - rewrite E1. reflexivity.
Qed.

(** * The model and the machine *)

Lemma scan_cons : forall stop c c' r,
  stop c = false -> (c =? 0) = false ->
  scan stop c (c' :: r) = (c :: fst (scan stop c' r), snd (scan stop c' r)).
Proof.
  intros stop c c' r H H0. cbn [scan]. rewrite H, H0. destruct (scan stop c' r); reflexivity.
Qed.

Lemma scan_hit : forall stop c r, stop c = true -> scan stop c r = ([], Hit c r).
Proof. intros stop c r H. destruct r; cbn [scan]; rewrite H; reflexivity. Qed.
Lemma scan_nul : forall stop r, stop 0 = false -> scan stop 0 r = ([0], Nul r).
Proof. intros stop r H. destruct r; cbn [scan]; rewrite H; reflexivity. Qed.
Lemma scan_end : forall stop c, stop c = false -> (c =? 0) = false -> scan stop c [] = ([c], End c).
Proof. intros stop c H H0. cbn [scan]. rewrite H, H0. reflexivity. Qed.

Lemma append_app : forall t a b, append (append t a) b = append t (a ++ b).
Proof. intros t a b. destruct t. unfold append, set_pb. cbn. rewrite app_assoc. reflexivity. Qed.

(** One pass of the model either agrees with the machine, or is inside one of
    the tight loops and goes on with the next character. *)
Definition agrees (e : env) (bnd : bool) (t : tok) (obj : jv) (c : N) (rest : bytes) : Prop :=
  match dswitch e t obj c with
  | DR t' o => switch e bnd t obj c rest = Redo t' o c rest
  | DS t' => switch e bnd t obj c rest = Out t' c (c :: rest)
  | DB => switch e bnd t obj c rest = BadObject
  | DT => False
  | DN t' =>
      switch e bnd t obj c rest = Brk t' obj c rest \/
      rank t' = rank t /\
      switch e bnd t obj c rest =
        (if c =? 0 then Out t' 0 rest
         else match rest with
              | [] => pop_fail bnd t' c
              | c' :: r' => switch e bnd t' obj c' r'
              end)
  end.

Ltac plain_state :=
  unfold agrees, dswitch, switch; cbn [top state];
  repeat match goal with
    | |- context [if ?x then _ else _] => destruct x
    end;
  try (left; reflexivity); try reflexivity.

Lemma switch_dswitch : forall e bnd t obj c rest, agrees e bnd t obj c rest.
Proof.
  intros e bnd t obj c rest.
  destruct t as [f fs p db sp uc q er sta]. destruct f as [s sv cu fn].
  destruct s; [ | | | plain_state; fail | plain_state; fail | | | plain_state; fail | | plain_state; fail | | plain_state; fail
    | | plain_state; fail | | plain_state; fail | plain_state; fail | | plain_state; fail | plain_state; fail | | plain_state; fail].
  - (* eatws *)
    unfold agrees, dswitch. cbn [top state].
    destruct (isspace c) eqn:E.
    + right. split; [reflexivity|].
      assert (N0 : (c =? 0) = false) by (unfold isspace in E; lia). rewrite N0.
      unfold switch. cbn [top state].
      destruct rest as [|c' r'].
      * rewrite scan_end by (rewrite ?E; auto). reflexivity.
      * rewrite scan_cons by (rewrite ?E; auto).
        destruct (scan _ c' r') as [s x]; reflexivity.
    + unfold switch. cbn [top state]. rewrite scan_hit by (rewrite E; reflexivity).
      destruct (c =? 47); [left; reflexivity|reflexivity].
  - (* start *) plain_state.
  - (* finish *) unfold agrees, dswitch, switch. cbn [top state below]. destruct fs; reflexivity.
  - (* comment *)
    unfold agrees, dswitch. cbn [top state].
    destruct (c =? 42) eqn:E.
    + left. unfold switch. cbn [top state]. rewrite scan_hit by exact E. reflexivity.
    + right. split; [reflexivity|]. unfold switch. cbn [top state].
      destruct (c =? 0) eqn:N0.
      * apply N.eqb_eq in N0. subst c. rewrite scan_nul by reflexivity. reflexivity.
      * destruct rest as [|c' r'].
        -- rewrite scan_end by auto. reflexivity.
        -- rewrite scan_cons by auto. cbn [append set_pb top state].
           destruct (scan _ c' r') as [s x]; destruct x; cbn [fst snd]; rewrite append_app; reflexivity.
  - (* comment_eol *)
    unfold agrees, dswitch. cbn [top state].
    destruct (c =? 10) eqn:E.
    + left. unfold switch. cbn [top state]. rewrite scan_hit by exact E. reflexivity.
    + right. split; [reflexivity|]. unfold switch. cbn [top state].
      destruct (c =? 0) eqn:N0.
      * apply N.eqb_eq in N0. subst c. rewrite scan_nul by reflexivity. reflexivity.
      * destruct rest as [|c' r'].
        -- rewrite scan_end by auto. reflexivity.
        -- rewrite scan_cons by auto. cbn [append set_pb top state].
           destruct (scan _ c' r') as [s x]; destruct x; cbn [fst snd]; rewrite append_app; reflexivity.
  - (* string *)
    unfold agrees, dswitch. cbn [top state quote_char].
    destruct ((c =? q) || (c =? 92)) eqn:E.
    + unfold switch. cbn [top state quote_char]. rewrite scan_hit by exact E.
      cbn [append set_pb quote_char].
      destruct (c =? q); left; reflexivity.
    + right. split; [reflexivity|]. unfold switch. cbn [top state quote_char].
      destruct (c =? 0) eqn:N0.
      * apply N.eqb_eq in N0. subst c. rewrite scan_nul by exact E. reflexivity.
      * destruct rest as [|c' r'].
        -- rewrite scan_end by auto. reflexivity.
        -- rewrite scan_cons by auto. cbn [append set_pb top state quote_char].
           destruct (scan _ c' r') as [s x]; destruct x; cbn [fst snd]; rewrite append_app; reflexivity.
  - (* unicode *)
    unfold agrees, dswitch. cbn [top state].
    destruct (hex_or_nul c) eqn:E.
    + cbn [st_pos set_pos].
      destruct (Nat.eqb (S sp) 4) eqn:P4.
      * left. unfold switch. cbn [top state]. destruct rest; cbn [unicode]; rewrite E; cbn [st_pos set_pos]; rewrite P4; reflexivity.
      * right. split; [reflexivity|]. unfold switch at 1. cbn [top state].
        destruct rest as [|c' r']; cbn [unicode]; rewrite E; cbn [st_pos set_pos]; rewrite P4;
          destruct (c =? 0) eqn:N0; try reflexivity.
        -- apply N.eqb_eq in N0. subst c. reflexivity.
        -- apply N.eqb_eq in N0. subst c. reflexivity.
    + unfold switch. cbn [top state]. destruct rest; cbn [unicode]; rewrite E; reflexivity.
  - (* number *)
    unfold agrees, dswitch. cbn [top state is_double].
    destruct ((c =? 0) || negb (number_char c)) eqn:E.
    + unfold switch. cbn [top state is_double]. rewrite scan_hit by exact E. cbn [existsb].
      destruct (number_object e _ _); reflexivity.
    + right. split; [reflexivity|]. unfold switch. cbn [top state is_double].
      assert (N0 : (c =? 0) = false) by (destruct (c =? 0); [discriminate|reflexivity]). rewrite N0.
      destruct rest as [|c' r'].
      * rewrite scan_end by auto. cbn [existsb]. rewrite orb_false_r. reflexivity.
      * rewrite scan_cons by auto. cbn [append set_pb set_double top state is_double existsb].
        destruct (scan _ c' r') as [s x]; cbn [fst snd existsb]. 
        rewrite (orb_assoc db). 
        destruct x; unfold append, set_pb, set_double; cbn [top below pb is_double st_pos ucs_char quote_char err started];
          rewrite <- ?app_assoc; reflexivity.
  - (* array_add *) unfold agrees, dswitch, switch. cbn [top state current]. destruct cu; reflexivity.
  - (* field *)
    unfold agrees, dswitch. cbn [top state quote_char].
    destruct ((c =? q) || (c =? 92)) eqn:E.
    + unfold switch. cbn [top state quote_char]. rewrite scan_hit by exact E.
      cbn [append set_pb quote_char].
      destruct (c =? q); left; reflexivity.
    + right. split; [reflexivity|]. unfold switch. cbn [top state quote_char].
      destruct (c =? 0) eqn:N0.
      * apply N.eqb_eq in N0. subst c. rewrite scan_nul by exact E. reflexivity.
      * destruct rest as [|c' r'].
        -- rewrite scan_end by auto. reflexivity.
        -- rewrite scan_cons by auto. cbn [append set_pb top state quote_char].
           destruct (scan _ c' r') as [s x]; destruct x; cbn [fst snd]; rewrite append_app; reflexivity.
  - (* value_add *) unfold agrees, dswitch, switch. cbn [top state current field_name].
    destruct cu; try reflexivity. destruct fn; reflexivity.
Qed.

Definition cont (n : nat) (e : env) (bnd : bool) (x : outcome) : outcome :=
  match x with
  | Brk t obj c rest => if c =? 0 then Out t c rest else main_loop n e bnd t obj c rest
  | x => x
  end.

Definition dcont (e : env) (bnd : bool) (c : N) (rest : bytes) (x : dres) : result :=
  match x with
  | DN t' => if c =? 0 then finish_parse (Out t' 0 rest) else drun e bnd t' rest
  | DS t' => finish_parse (Out t' c (c :: rest))
  | _ => Wrong
  end.

Lemma pop_fail_c : forall bnd t c, c <> 0 ->
  finish_parse (pop_fail bnd t c) = finish_parse (pop_fail bnd t 1).
Proof.
  intros bnd t c H. unfold pop_fail. destruct bnd; [|reflexivity].
  unfold finish_parse. apply N.eqb_neq in H. rewrite H. reflexivity.
Qed.

Lemma main_loop_S : forall n e bnd t obj c0 c r,
  main_loop (S n) e bnd t obj c0 (c :: r) = cont n e bnd (redo_char 12 e bnd t obj c r).
Proof. intros. cbn [main_loop]. destruct (redo_char 12 e bnd t obj c r); reflexivity. Qed.

Definition again (k : nat) (e : env) (bnd : bool) (x : outcome) : outcome :=
  match x with Redo t obj c rest => redo_char k e bnd t obj c rest | x => x end.

Lemma redo_char_S : forall k e bnd t obj c r,
  redo_char (S k) e bnd t obj c r = again k e bnd (switch e bnd t obj c r).
Proof. intros. cbn [redo_char]. destruct (switch e bnd t obj c r); reflexivity. Qed.

Lemma redo_drun : forall rest k n e bnd t obj c,
  Inv t -> (rank t < k)%nat -> (length rest <= n)%nat ->
  finish_parse (cont n e bnd (redo_char k e bnd t obj c rest)) = dcont e bnd c rest (dredo k e t obj c).
Proof.
  induction rest as [rest IHr] using (well_founded_induction (Wf_nat.well_founded_ltof _ (@length N))).
  unfold Wf_nat.ltof in IHr.
  induction k as [|k IHk]; intros n e bnd t obj c I R L; [lia|].
  rewrite redo_char_S. cbn [dredo].
  pose proof (switch_dswitch e bnd t obj c rest) as A. unfold agrees in A.
  pose proof (dswitch_inv e t obj c I) as D.
  destruct (dswitch e t obj c) as [t'|t' o|t'| |].
  - destruct D as [I' Rs].
    destruct A as [-> |[Rk ->]].
    + cbn [again cont dcont]. destruct (c =? 0) eqn:N0; [apply N.eqb_eq in N0; subst c; reflexivity|].
      destruct rest as [|c' r'].
      * cbn [drun]. destruct n; cbn [main_loop]; apply pop_fail_c; apply N.eqb_neq; exact N0.
      * cbn [length] in L. destruct n as [|n]; [lia|]. rewrite main_loop_S.
        rewrite IHr; [|cbn; lia|exact I'|pose proof (rank_bound t'); lia|lia].
        cbn [drun]. unfold delta. rewrite (dredo_obj 12 e t' JNull obj c' Rs I').
        unfold dcont. destruct (dredo 12 e t' obj c'); reflexivity.
    + cbn [dcont]. destruct (c =? 0) eqn:N0; [reflexivity|].
      destruct rest as [|c' r'].
      * cbn [drun]. unfold pop_fail. destruct bnd; [|reflexivity]. cbn [again cont].
        unfold finish_parse. rewrite N0. reflexivity.
      * cbn [length] in L.
        rewrite <- redo_char_S.
        rewrite IHr; [|cbn; lia|exact I'|lia|lia].
        cbn [drun]. unfold delta. rewrite (dredo_obj 12 e t' JNull obj c' Rs I').
        rewrite (dredo_more 12 (S k) e t' obj c' I') by (pose proof (rank_bound t'); lia).
        unfold dcont. destruct (dredo (S k) e t' obj c'); reflexivity.
  - destruct D as [I' Rs]. rewrite A. apply IHk; [exact I'|lia|exact L].
  - rewrite A. reflexivity.
  - contradiction.
  - contradiction.
Qed.

Lemma main_drun : forall inp n e bnd t obj c,
  Inv t -> resting t -> (length inp <= n)%nat -> c <> 0 ->
  finish_parse (main_loop n e bnd t obj c inp) = drun e bnd t inp.
Proof.
  intros inp n e bnd t obj c I Rs L N0. destruct inp as [|a r].
  - cbn [drun]. destruct n; cbn [main_loop]; apply pop_fail_c; exact N0.
  - cbn [length] in L. destruct n as [|n]; [lia|]. rewrite main_loop_S.
    rewrite redo_drun; [|exact I|pose proof (rank_bound t); lia|lia].
    cbn [drun]. unfold delta. rewrite (dredo_obj 12 e t JNull obj a Rs I).
    unfold dcont. destruct (dredo 12 e t obj a); reflexivity.
Qed.

(** parse_ex in terms of the machine *)
Definition skip (inp : bytes) : bytes :=
  (fix go l := match l with c :: r => if isspace c then go r else l | [] => [] end) inp.

Lemma scan_ws : forall rest c,
  match snd (scan (fun c => negb (isspace c)) c rest) with
  | Hit c' r' => skip (c :: rest) = c' :: r'
  | Nul _ => False
  | End c' => skip (c :: rest) = [] /\ c' <> 0
  end.
Proof.
  induction rest as [|a rest IH]; intros c.
  - destruct (isspace c) eqn:E.
    + rewrite scan_end; [|rewrite E; reflexivity|unfold isspace in E; lia].
      cbn [snd]. unfold skip. rewrite E. split; [reflexivity|unfold isspace in E; lia].
    + rewrite scan_hit by (rewrite E; reflexivity). cbn [snd]. unfold skip. rewrite E. reflexivity.
  - destruct (isspace c) eqn:E.
    + rewrite scan_cons; [|rewrite E; reflexivity|unfold isspace in E; lia].
      cbn [snd]. specialize (IH a).
      replace (skip (c :: a :: rest)) with (skip (a :: rest)) by (unfold skip at 2; rewrite E; reflexivity).
      exact IH.
    + rewrite scan_hit by (rewrite E; reflexivity). cbn [snd]. unfold skip. rewrite E. reflexivity.
Qed.

Definition fresh_err (t : tok) : tok := set_err t E_success.

Definition dparse (e : env) (bnd : bool) (t : tok) (inp : bytes) : result :=
  let t := set_err t E_success in
  if started t then drun e bnd t inp
  else
    let t := set_started t in
    match skip inp with
    | [] => if bnd then finish_parse (Out (set_err t E_eof) 1 []) else Wrong
    | c :: rest =>
        if (c =? 123) || (c =? 91) then drun e bnd t (c :: rest)
        else finish_parse (Out (set_err t E_unexpected) c (c :: rest))
    end.

Lemma set_err_inv : forall t x, Inv t -> Inv (set_err t x).
Proof. intros t x I. exact I. Qed.
Lemma set_started_inv : forall t, Inv t -> Inv (set_started t).
Proof. intros t I. exact I. Qed.

Lemma parse_ex_dparse : forall e bnd t inp,
  Inv t -> resting t -> parse_ex e bnd t inp = dparse e bnd t inp.
Proof.
  intros e bnd t inp I Rs. unfold parse_ex, dparse.
  destruct (started (set_err t E_success)) eqn:St.
  - apply main_drun; [exact I|exact Rs|lia|discriminate].
  - destruct inp as [|c rest]; [reflexivity|].
    pose proof (scan_ws rest c) as H.
    destruct (scan _ c rest) as [s x]. cbn [snd] in H. destruct x as [c' r'|r'|c'].
    + rewrite H. rewrite <- negb_orb. destruct ((c' =? 123) || (c' =? 91)) eqn:B; cbn [negb].
      * apply main_drun; [exact I|exact Rs|cbn; lia|].
        intros ->. discriminate B.
      * reflexivity.
    + contradiction.
    + destruct H as [-> N0]. destruct bnd; [|reflexivity].
      unfold finish_parse. apply N.eqb_neq in N0. rewrite N0. reflexivity.
Qed.
