(** Lemmas: the way of a line. *)
From Coq Require Import Arith NArith List Bool Lia ZifyBool ZifyNat.
From Verif.Logs Require Import Model Spec Proofs Proofs2 Proofs3.
Import ListNotations.

Section Line.
Context (ss : list stream) (l : line) (INV : inv ss) (COH : coherent ss).
Set Default Proof Using "All".

(** the answers kept are those of the filters *)
Definition true_to (t : tracker) : Prop := forall i j b, In (i, j, b) t ->
  forall o f, In o (outs (get ss i)) -> target o = j -> cond o = Some f -> b = run f l.
Lemma true_nil : true_to []. Proof. intros i j b []. Qed.
Lemma seen_in : forall t i j b, seen t i j = Some b -> In (i, j, b) t.
Proof.
  induction t as [|[[i' j'] b'] t IH]; intros i j b H; [discriminate H|]. cbn [seen] in H.
  destruct ((i' =? i) && (j' =? j)) eqn:E; [|right; auto]. injection H as <-. left. repeat f_equal; lia.
Qed.
Lemma same_target : forall i o o', In o (outs (get ss i)) -> In o' (outs (get ss i)) -> target o = target o' -> o = o'.
Proof.
  intros i o o' I I' E. destruct INV as [_ O]. destruct (O i) as [_ D]. clear - I I' E D. induction (outs (get ss i)) as [|x os IH]; [destruct I|].
  cbn [map] in D. inversion D as [|? ? NI D']; subst. destruct I as [<-|I], I' as [<-|I']; auto.
  - exfalso. apply NI. rewrite E. now apply in_map.
  - exfalso. apply NI. rewrite <- E. now apply in_map.
Qed.
Lemma true_track : forall t i o f, true_to t -> In o (outs (get ss i)) -> cond o = Some f -> true_to (track t i (target o) (run f l)).
Proof.
  intros t i o f T I C. unfold track. destruct (8 <=? length t); [exact T|]. intros i' j' b' H o' f' I' E' C'.
  apply in_app_or in H. destruct H as [H|[H|[]]]; [now apply (T i' j' b' H o')|]. injection H as <- <- <-.
  pose proof (same_target i o o' I I' (eq_sym E')) as ->. congruence.
Qed.
Lemma honest_run : forall i o f, In o (outs (get ss i)) -> cond o = Some f -> needs_message f = false -> run f (mkline (meta l) []) = run f l.
Proof.
  intros i o f I C N. destruct INV as [_ O]. destruct (O i) as [F _]. rewrite Forall_forall in F. destruct (F o I) as [_ H].
  pose proof (H f C N (meta l) [] (text l)) as Q. destruct l as [m x]. exact Q.
Qed.

(** whether a line is needed *)
Definition useless (i : nat) : Prop := forall t, ~ route ss l i t.
Lemma needed_outs_ok : forall hm i rec, (forall j t n t', true_to t -> rec j t = Some (n, t') ->
    true_to t' /\ (n = No -> useless j) /\ (hm = true -> n <> Message)) ->
  forall os, incl os (outs (get ss i)) -> forall t n t', true_to t -> needed_outs l hm i rec os t = Some (n, t') ->
    true_to t' /\ (n = No -> forall o, In o os -> passes o l -> useless (target o)) /\ (hm = true -> n <> Message).
Proof.
  intros hm i rec R os. induction os as [|o os IH]; intros INC t n t' T H; cbn [needed_outs] in H.
  - injection H as <- <-. split; [exact T|]. split; [intros _ o []|discriminate].
  - destruct (rec (target o) t) as [[n1 t1]|] eqn:E; [|discriminate H]. cbn [bind] in H. destruct (R _ _ _ _ T E) as (T1 & U1 & M1).
    assert (Io : In o (outs (get ss i))) by (apply INC; now left).
    assert (INC' : incl os (outs (get ss i))) by (intros x X; apply INC; now right).
    assert (Y : (match cond o with
          | None => Some (Yes, t1)
          | Some f =>
              match seen t1 i (target o) with
              | Some true => Some (Yes, t1)
              | Some false => needed_outs l hm i rec os t1
              | None =>
                  if negb hm && needs_message f then Some (Message, t1)
                  else if run f (if hm then l else mkline (meta l) []) then Some (Yes, track t1 i (target o) (run f (if hm then l else mkline (meta l) [])))
                  else needed_outs l hm i rec os (track t1 i (target o) (run f (if hm then l else mkline (meta l) [])))
              end
          end = Some (n, t') ->
       true_to t' /\ (n = No -> forall o', In o' (o :: os) -> passes o' l -> useless (target o')) /\ (hm = true -> n <> Message))).
    { clear H. intro H. destruct (cond o) as [f|] eqn:C.
      - destruct (seen t1 i (target o)) as [b|] eqn:SE.
        + apply seen_in in SE. pose proof (T1 _ _ _ SE o f Io eq_refl C) as B. destruct b.
          * injection H as <- <-. split; [exact T1|]. split; [discriminate|discriminate].
          * destruct (IH INC' _ _ _ T1 H) as (T2 & U2 & M2). split; [exact T2|]. split; [|exact M2]. intros N o' [<-|I'] P; [|now apply (U2 N)].
            exfalso. unfold passes in P. rewrite C in P. congruence.
        + destruct (negb hm && needs_message f) eqn:NM.
          * injection H as <- <-. split; [exact T1|]. split; [discriminate|]. intros ->. discriminate NM.
          * assert (RF : run f (if hm then l else mkline (meta l) []) = run f l).
            { destruct hm; [reflexivity|]. apply (honest_run i o f Io C). exact NM. }
            rewrite RF in H. pose proof (true_track t1 i o f T1 Io C) as T2. destruct (run f l) eqn:RL.
            -- injection H as <- <-. split; [exact T2|]. split; discriminate.
            -- destruct (IH INC' _ _ _ T2 H) as (T3 & U3 & M3). split; [exact T3|]. split; [|exact M3]. intros N o' [<-|I'] P; [|now apply (U3 N)].
               exfalso. unfold passes in P. rewrite C in P. congruence.
      - injection H as <- <-. split; [exact T1|]. split; discriminate. }
    destruct n1; [|exact (Y H)|exact (Y H)]. clear Y.
    destruct (IH INC' _ _ _ T1 H) as (T2 & U2 & M2). split; [exact T2|]. split; [|exact M2]. intros N o' [<-|I'] P; [now apply U1|now apply (U2 N)].
Qed.
Lemma needed_ok : forall hm d i t n t', true_to t -> needed d ss l hm i t = Some (n, t') ->
  true_to t' /\ (n = No -> useless i) /\ (hm = true -> n <> Message).
Proof.
  intros hm. induction d as [|d IH]; intros i t n t' T H; [discriminate H|]. cbn [needed] in H.
  destruct (enabled (flg (get ss i))) eqn:E; cbn [negb] in H.
  - destruct (writer (get ss i)) eqn:W.
    + injection H as <- <-. split; [exact T|]. split; discriminate.
    + destruct (needed_outs_ok hm i (needed d ss l hm) IH _ (incl_refl _) _ _ _ T H) as (T2 & U2 & M2). split; [exact T2|]. split; [|exact M2].
      intros N r R. inversion R as [? E' W'|? o r' E' I P R']; subst; [congruence|]. now apply (U2 eq_refl o I P) in R'.
  - injection H as <- <-. split; [exact T|]. split; [|discriminate]. intros _ r R. inversion R; congruence.
Qed.

(** what is written on one way *)
Fixpoint render (up : option (bytes * flags)) (r : list nat) : list written :=
  match r with
  | [] => []
  | [w] => writes (get ss w) w up l
  | i :: r => render (Some (match up with Some (n, _) => n | None => name (get ss i) end, flg (get ss i))) r
  end.
Definition all_ways (i : nat) (rs : list (list nat)) : Prop := NoDup rs /\ forall r, In r rs <-> route ss l i r.
Lemma route_head : forall i r, route ss l i r -> exists r', r = i :: r'.
Proof. intros i r R. inversion R; subst; eauto. Qed.
Lemma log_outs_ok : forall i rec up, (forall j t w t', true_to t -> enabled (flg (get ss j)) = true -> rec j t = Some (w, t') ->
    true_to t' /\ exists rs, all_ways j rs /\ w = flat_map (render up) rs) ->
  forall os, incl os (outs (get ss i)) -> NoDup (map target os) -> forall t w t', true_to t -> log_outs ss l i rec os t = Some (w, t') ->
    true_to t' /\ exists rs, NoDup rs /\ (forall r, In r rs <-> exists o, In o os /\ passes o l /\ route ss l (target o) r) /\ w = flat_map (render up) rs.
Proof.
  intros i rec up R. induction os as [|o os IH]; intros INC D t w t' T H; cbn [log_outs] in H.
  - injection H as <- <-. split; [exact T|]. exists []. split; [constructor|]. split; [|reflexivity]. intro r. split; [intros []|]. intros (o & [] & _).
  - assert (Io : In o (outs (get ss i))) by (apply INC; now left).
    assert (INC' : incl os (outs (get ss i))) by (intros x X; apply INC; now right).
    cbn [map] in D. inversion D as [|? ? NI D']; subst.
    destruct (enabled (flg (get ss (target o))) && below (get ss (target o))) eqn:EB.
    + apply andb_prop in EB. destruct EB as [E B].
      destruct (match cond o with
                | None => (true, t)
                | Some f => match seen t i (target o) with
                            | Some b => (b, t)
                            | None => let b := run f l in (b, track t i (target o) b)
                            end
                end) as [b t1] eqn:Q.
      assert (TB : true_to t1 /\ (b = true <-> passes o l)).
      { unfold passes. destruct (cond o) as [f|] eqn:C.
        - destruct (seen t i (target o)) as [b'|] eqn:SE.
          + injection Q as <- <-. split; [exact T|]. apply seen_in in SE. rewrite (T _ _ _ SE o f Io eq_refl C). reflexivity.
          + injection Q as <- <-. split; [now apply true_track|reflexivity].
        - injection Q as <- <-. split; [exact T|]. tauto. }
      destruct TB as [T1 PB]. clear Q. destruct b.
      * destruct (rec (target o) t1) as [[w1 t2]|] eqn:E1; [|discriminate H]. cbn [bind snd fst] in H.
        destruct (log_outs ss l i rec os t2) as [[w2 t3]|] eqn:E2; [|discriminate H]. cbn [bind snd fst] in H. injection H as <- <-.
        destruct (R _ _ _ _ T1 E E1) as (T2 & rs1 & [N1 A1] & ->). destruct (IH INC' D' _ _ _ T2 E2) as (T3 & rs2 & N2 & A2 & ->).
        split; [exact T3|]. exists (rs1 ++ rs2). split; [|split; [|now rewrite flat_map_app]].
        -- assert (X : forall a, In a rs1 -> ~ In a rs2).
           { intros a Ha Hb. apply A1 in Ha. apply A2 in Hb. destruct Hb as (o' & I' & _ & R'). apply route_head in Ha, R'. destruct Ha as [ra ->], R' as [rb Rb].
             injection Rb as Et _. apply NI. rewrite Et. now apply in_map. }
           clear - N1 N2 X. induction rs1 as [|a rs1 IHr]; [exact N2|]. inversion N1 as [|? ? Na N1']; subst. cbn [app]. constructor.
           ++ intro Ia. apply in_app_or in Ia. destruct Ia as [Ia|Ia]; [now apply Na|]. apply (X a); [now left|exact Ia].
           ++ apply IHr; [exact N1'|]. intros c Hc. apply X. now right.
        -- intro r. rewrite in_app_iff, A1, A2. split.
           ++ intros [Hr|(o' & I' & P' & R')]; [exists o; split; [now left|]; split; [now apply PB|exact Hr]|exists o'; split; [now right|now split]].
           ++ intros (o' & [<-|I'] & P' & R'); [now left|right; eauto].
      * destruct (IH INC' D' _ _ _ T1 H) as (T3 & rs2 & N2 & A2 & ->). split; [exact T3|]. exists rs2. split; [exact N2|]. split; [|reflexivity].
        intro r. rewrite A2. split; [intros (o' & I' & P' & R'); exists o'; split; [now right|now split]|].
        intros (o' & [<-|I'] & P' & R'); [apply PB in P'; discriminate P'|eauto].
    + destruct (IH INC' D' _ _ _ T H) as (T3 & rs2 & N2 & A2 & ->). split; [exact T3|]. exists rs2. split; [exact N2|]. split; [|reflexivity].
      intro r. rewrite A2. split; [intros (o' & I' & P' & R'); exists o'; split; [now right|now split]|].
      intros (o' & [<-|I'] & P' & R'); [|eauto]. exfalso. pose proof (route_reach _ _ _ _ R') as RR. apply COH in RR. rewrite RR, andb_true_r in EB.
      inversion R'; congruence.
Qed.
Lemma log_line_ok : forall d up i t w t', true_to t -> enabled (flg (get ss i)) = true -> log_line d ss up i l t = Some (w, t') ->
  true_to t' /\ exists rs, all_ways i rs /\ w = flat_map (render up) rs.
Proof.
  induction d as [|d IH]; intros up i t w t' T E H; [discriminate H|]. cbn [log_line] in H.
  set (up' := Some (match up with Some (n, _) => n | None => name (get ss i) end, flg (get ss i))) in H.
  destruct (log_outs ss l i _ (outs (get ss i)) t) as [[w1 t1]|] eqn:LO; [|discriminate H]. cbn [bind fst snd] in H. injection H as <- <-.
  destruct (log_outs_ok i _ up' (fun j t w t' => IH up' j t w t') _ (incl_refl _) (proj2 (proj2 INV i)) _ _ _ T LO) as (T1 & rs & N & A & ->).
  split; [exact T1|]. exists ((if writer (get ss i) then [[i]] else []) ++ map (cons i) rs). split; [split|].
  - assert (NM : NoDup (map (cons i) rs)).
    { clear - N. induction N as [|r rs NI N IHn]; [constructor|]. cbn. constructor; [|exact IHn]. intro I. apply in_map_iff in I. destruct I as (r' & E & I). injection E as ->. contradiction. }
    destruct (writer (get ss i)); [|exact NM]. cbn [app]. constructor; [|exact NM]. intro I. apply in_map_iff in I. destruct I as (r' & Er & I). injection Er as ->.
    apply A in I. destruct I as (o & _ & _ & R). inversion R.
  - intro r. rewrite in_app_iff, in_map_iff. split.
    + intros [I|(r' & <- & I)].
      * destruct (writer (get ss i)) eqn:W; [destruct I as [<-|[]]; now apply r_here|destruct I].
      * apply A in I. destruct I as (o & I & P & R). now apply (r_on ss l i o).
    + intro R. inversion R as [? E' W'|? o r' E' I P R']; subst.
      * left. rewrite W'. now left.
      * right. exists r'. split; [reflexivity|]. apply A. eauto.
  - rewrite flat_map_app. f_equal.
    + unfold writes. destruct (writer (get ss i)) eqn:W; [|reflexivity]. cbn. rewrite app_nil_r. unfold writes. now rewrite W.
    + assert (NE : forall r, In r rs -> r <> []) by (intros r I; apply A in I; destruct I as (o & _ & _ & R); inversion R; discriminate).
      clear - NE. induction rs as [|r rs IHr]; [reflexivity|]. cbn [flat_map map]. f_equal; [|apply IHr; intros x X; apply NE; now right].
      destruct r as [|j r]; [exfalso; now apply (NE []); [left|]|]. reflexivity.
Qed.
Lemma log_ok : forall d i w, log d ss i l = Some w -> exists rs, all_ways i rs /\ w = flat_map (render None) rs.
Proof.
  intros d i w H. assert (NONE : useless i -> exists rs, all_ways i rs /\ @nil written = flat_map (render None) rs).
  { intro U. exists []. split; [|reflexivity]. split; [constructor|]. intro r. split; [intros []|]. intro R. now apply U in R. }
  unfold log in H. destruct (enabled (flg (get ss i)) && below (get ss i)) eqn:EB.
  - apply andb_prop in EB. destruct EB as [E _]. destruct (needed d ss l false i []) as [[n t]|] eqn:N1; [|discriminate H]. cbn [bind] in H.
    destruct (needed_ok _ _ _ _ _ _ true_nil N1) as (T1 & U1 & _).
    assert (LL : forall t, true_to t -> bind (log_line d ss None i l t) (fun wt => Some (fst wt)) = Some w -> exists rs, all_ways i rs /\ w = flat_map (render None) rs).
    { intros t0 T0 H0. destruct (log_line d ss None i l t0) as [[w1 t2]|] eqn:LE; [|discriminate H0]. cbn [bind fst] in H0. injection H0 as <-.
      now apply (log_line_ok _ _ _ _ _ _ T0 E LE). }
    destruct n.
    + injection H as <-. now apply NONE, U1.
    + now apply (LL t).
    + destruct (needed d ss l true i t) as [[n2 t2]|] eqn:N2; [|discriminate H]. cbn [bind] in H. destruct (needed_ok _ _ _ _ _ _ T1 N2) as (T2 & U2 & M2).
      destruct n2; [injection H as <-; now apply NONE, U2|now apply (LL t2)|now specialize (M2 eq_refl)].
  - injection H as <-. apply NONE. intros r R. pose proof (route_reach _ _ _ _ R) as RR. apply COH in RR. rewrite RR, andb_true_r in EB. inversion R; congruence.
Qed.
(** in terms of the way alone *)
Lemma render_given : forall r i, route ss l i r -> render None r = given ss l r.
Proof.
  assert (G : forall i r, route ss l i r -> forall n u, render (Some (n, flg (get ss u))) r =
    if plain (get ss (last r 0)) then
      map (Text (last r 0) (asked ss stamps (u :: r)) (if asked ss facility (u :: r) then Some n else None) (asked ss debug (u :: r)))
        (pieces (split (flg (get ss (last r 0)))) (text l))
    else [Whole (last r 0)]).
  { intros i r R. induction R as [i E W|i o r E I P R IH]; intros n u.
    - cbn [render last]. unfold writes, asked. rewrite W. reflexivity.
    - assert (NE : exists j r', r = j :: r') by (inversion R; eauto). destruct NE as (j & r' & ->).
      specialize (IH n i). change (render (Some (n, flg (get ss u))) (i :: j :: r')) with (render (Some (n, flg (get ss i))) (j :: r')). rewrite IH.
      change (last (i :: j :: r') 0) with (last (j :: r') 0).
      assert (A : forall f, asked ss f (u :: i :: j :: r') = asked ss f (i :: j :: r')).
      { intro f. unfold asked. change (rev (u :: i :: j :: r')) with (rev (i :: j :: r') ++ [u]).
        assert (L : length (rev (i :: j :: r')) = S (S (length r'))) by (now rewrite rev_length).
        destruct (rev (i :: j :: r')) as [|a [|b c]]; [discriminate L|discriminate L|reflexivity]. }
      now rewrite !A. }
  intros r i R. inversion R as [i' E W|i' o r' E I P R']; subst.
  - cbn. unfold writes, given, asked. cbn. rewrite W, !orb_false_r. reflexivity.
  - assert (NE : exists j q, r' = j :: q) by (inversion R'; eauto). destruct NE as (j & q & ->).
    change (render None (i :: j :: q)) with (render (Some (name (get ss i), flg (get ss i))) (j :: q)). rewrite (G _ _ R'). unfold given.
    change (last (i :: j :: q) 0) with (last (j :: q) 0). reflexivity.
Qed.
Lemma log_given : forall d i w, log d ss i l = Some w -> exists rs, NoDup rs /\ (forall r, In r rs <-> route ss l i r) /\ w = flat_map (given ss l) rs.
Proof.
  intros d i w H. destruct (log_ok d i w H) as (rs & [N A] & ->). exists rs. split; [exact N|]. split; [exact A|].
  assert (X : forall r, In r rs -> render None r = given ss l r) by (intros r I; apply A in I; now apply (render_given r i)).
  clear - X. induction rs as [|r rs IH]; [reflexivity|]. cbn [flat_map]. rewrite X by now left. rewrite IH; [reflexivity|]. intros q Q. apply X. now right.
Qed.
End Line.
