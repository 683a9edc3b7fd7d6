(** The memory log. *)
From Coq Require Import ZArith NArith Arith List Bool Lia ZifyBool ZifyNat.
From Verif.Membuf Require Import Model Spec Proofs Proofs2 Proofs3 Proofs4.
Import ListNotations.
Local Open Scope nat_scope.

Definition stamp0 : bytes := repeat 1%N 16.
(** A line of [k] bytes [c]. *)
Definition msg (k : nat) (c : N) : message := (stamp0, repeat c k).
Definition junk0 : nat -> N := fun _ => 99%N.
Definition six : list message := [msg 2 1; msg 4 2; msg 3 3; msg 1 4; msg 4 5; msg 2 6].
Lemma six_small : small 20 80 six.
Proof. split; [lia|]. repeat constructor; cbn; lia. Qed.

(** * C134: the lines are read back as they were written *)
Definition C134_full : Prop := forall n Sz junk l, 3 <= n -> (Z.of_nat Sz < 2 ^ 32)%Z ->
  Forall (fun m => stamped m /\ room m <= Sz) l -> exists h, holds (write_all (init n Sz junk) l) l h.
Theorem C134_intact_partial : forall n Sz L junk l, 3 <= n -> (Z.of_nat Sz < 2 ^ 32)%Z -> small L Sz l ->
  exists h, holds (write_all (init n Sz junk) l) l h.
Proof.
  intros n Sz L junk l N S32 SM. destruct (inv_all n Sz L junk l N SM) as [I _]. exists (head (write_all (init n Sz junk) l)).
  destruct SM as [SL F]. now apply (inv_holds n Sz L).
Qed.
Example C134_intact_partial_ex : small 20 80 six /\
  lines_since (write_all (init 5 80 junk0) six) 0 = map Some [(2, stamp0, [3; 3; 3]%N); (3, stamp0, [4%N]); (4, stamp0, [5; 5; 5; 5]%N); (5, stamp0, [6; 6]%N)] /\
  lines_since (write_all (init 5 80 junk0) six) 3 = map Some [(4, stamp0, [5; 5; 5; 5]%N); (5, stamp0, [6; 6]%N)].
Proof. split; [exact six_small|]. split; reflexivity. Qed.
Theorem C134_refuted : ~ C134_full.
Proof.
  intro F. destruct (F 3 40 junk0 [msg 8 1; msg 8 2] ltac:(lia) ltac:(lia)) as [h [H1 H2]].
  - repeat constructor; cbn; lia.
  - cbn [length] in H1. specialize (H2 9). replace ((h <=? 9 + 1) && (9 + 1 <=? length [msg 8 1; msg 8 2])) with false in H2 by (cbn [length]; lia).
    destruct h as [|[|[|h]]]; [vm_compute in H2; discriminate..|lia].
Qed.
Example C134_refuted_ex : lines_since (write_all (init 3 40 junk0) [msg 8 1; msg 8 2]) 9 <> map Some (from [msg 8 1; msg 8 2] 0) /\
  lines_since (write_all (init 3 40 junk0) [msg 8 1; msg 8 2]) 9 <> map Some (from [msg 8 1; msg 8 2] 1).
Proof. split; vm_compute; discriminate. Qed.
(** What is read may be text that nobody wrote, with what was in memory. *)
Theorem C134_corrupt : forall junk, exists l, Forall (fun m => stamped m /\ room m <= 40) l /\
  lines_since (write_all (init 3 40 junk) l) 9 = [Some (0, stamp0, repeat 1%N 8 ++ map junk (seq 24 16))].
Proof. intro junk. exists [msg 8 1; msg 8 2; msg 10 3]. split; [repeat constructor; cbn; lia|]. reflexivity. Qed.
Example C134_corrupt_ex : lines_since (write_all (init 3 40 junk0) [msg 8 1; msg 8 2; msg 10 3]) 9 = [Some (0, stamp0, repeat 1%N 8 ++ repeat 99%N 16)].
Proof. reflexivity. Qed.

(** * C135: which lines are kept *)
Theorem C135_kept : forall n Sz L junk l h, 3 <= n -> (Z.of_nat Sz < 2 ^ 32)%Z -> small L Sz l -> l <> [] ->
  holds (write_all (init n Sz junk) l) l h ->
  length l - h < n /\
  forall i, i <= length l -> length l - i < n -> rooms (skipn i l) + L <= Sz -> h <= i.
Proof.
  intros n Sz L junk l h N S32 SM NE HH. destruct (inv_all n Sz L junk l N SM) as [I _].
  destruct SM as [SL F]. pose proof (inv_holds n Sz L _ l SL S32 F I) as HI.
  set (b := write_all (init n Sz junk) l) in *.
  assert (E : h = head b).
  { assert (TL : tail b = length l) by apply I. assert (0 < length l) by (destruct l; [contradiction|cbn; lia]).
    assert (head b < length l) by (pose proof (i_two _ _ _ _ _ I); lia).
    destruct HH as [H1 H2]. destruct HI as [H3 H4]. specialize (H2 (length l)). specialize (H4 (length l)).
    replace ((h <=? length l + 1) && (length l + 1 <=? length l)) with false in H2 by lia.
    replace ((head b <=? length l + 1) && (length l + 1 <=? length l)) with false in H4 by lia.
    rewrite H2 in H4. apply (f_equal (@length _)) in H4. rewrite !map_length, !from_seq, !map_length, !seq_length in H4. lia. }
  subst h. split.
  - pose proof (i_few _ _ _ _ _ I) as FW. rewrite (i_tail _ _ _ _ _ I) in FW. exact FW.
  - intros i Hi D R. now apply (inv_kept n Sz L b l).
Qed.
Example C135_kept_ex : holds (write_all (init 5 80 junk0) six) six 2 /\ rooms (skipn 4 six) + 20 <= 80 /\ length six - 4 < 5.
Proof.
  destruct (C134_intact_partial 5 80 20 junk0 six ltac:(lia) ltac:(lia) six_small) as [h [H1 H2]].
  split; [|split; cbn; lia].
  assert (E : h = 2); [|subst h; now split].
  specialize (H2 9). replace ((h <=? 9 + 1) && (9 + 1 <=? length six)) with false in H2 by (cbn [six length]; lia).
  cbn [six length] in H1. destruct h as [|[|[|[|[|[|[|h]]]]]]]; try reflexivity; [vm_compute in H2; discriminate..|lia].
Qed.

(** * C136: the last lines *)
Definition C136_full : Prop := forall n Sz L junk l h q, 3 <= n -> (Z.of_nat Sz < 2 ^ 32)%Z -> small L Sz l -> l <> [] ->
  holds (write_all (init n Sz junk) l) l h ->
  memory_lines (write_all (init n Sz junk) l) q = map Some (last_lines l h q).
Theorem C136_all_but_one_partial : forall n Sz L junk l q, 3 <= n -> (Z.of_nat Sz < 2 ^ 32)%Z -> small L Sz l ->
  exists h, holds (write_all (init n Sz junk) l) l h /\
  memory_lines (write_all (init n Sz junk) l) q = map Some (tl (last_lines l h q)).
Proof.
  intros n Sz L junk l q N S32 SM. destruct (inv_all n Sz L junk l N SM) as [I _]. exists (head (write_all (init n Sz junk) l)).
  destruct SM as [SL F]. split; [now apply (inv_holds n Sz L)|now apply (inv_memory n Sz L)].
Qed.
Example C136_all_but_one_partial_ex : small 20 80 six /\
  memory_lines (write_all (init 5 80 junk0) six) 2 = [Some (5, stamp0, [6; 6]%N)] /\
  memory_lines (write_all (init 5 80 junk0) six) 0 = map Some [(3, stamp0, [4%N]); (4, stamp0, [5; 5; 5; 5]%N); (5, stamp0, [6; 6]%N)] /\
  memory_lines (write_all (init 5 80 junk0) six) 1 = [].
Proof. split; [exact six_small|]. repeat split; reflexivity. Qed.
Theorem C136_refuted : ~ C136_full.
Proof.
  intro F. assert (SM : small 20 80 [msg 2 1]) by (split; [lia|repeat constructor; cbn; lia]).
  destruct (C134_intact_partial 3 80 20 junk0 [msg 2 1] ltac:(lia) ltac:(lia) SM) as [h H].
  assert (h <= 1) by (destruct H as [H1 _]; exact H1).
  pose proof (F 3 80 20 junk0 [msg 2 1] h 1 ltac:(lia) ltac:(lia) SM ltac:(discriminate) H) as G.
  destruct H as [_ H2]. specialize (H2 9).
  destruct h as [|[|h]]; [vm_compute in G; discriminate|vm_compute in H2; discriminate|lia].
Qed.
Example C136_refuted_ex : memory_lines (write_all (init 3 80 junk0) [msg 2 1]) 1 = [] /\ last_lines [msg 2 1] 0 1 = [(0, stamp0, [1; 1]%N)].
Proof. split; reflexivity. Qed.

(** * C137: following a log *)
(** A reader that has seen the lines [l1], the last being number [length l1 - 1], and asks again
    when [l2] have been written, gets those, each once, if they are still there. *)
Theorem C137_follow : forall n Sz L junk l1 l2 h, 3 <= n -> (Z.of_nat Sz < 2 ^ 32)%Z -> small L Sz (l1 ++ l2) -> l1 <> [] ->
  holds (write_all (init n Sz junk) (l1 ++ l2)) (l1 ++ l2) h ->
  (h <= length l1 -> lines_since (write_all (init n Sz junk) (l1 ++ l2)) (length l1 - 1) = map Some (from (l1 ++ l2) (length l1))) /\
  (length l1 < h -> lines_since (write_all (init n Sz junk) (l1 ++ l2)) (length l1 - 1) = map Some (from (l1 ++ l2) h)) /\
  (length l2 < n -> rooms l2 + L <= Sz -> h <= length l1).
Proof.
  intros n Sz L junk l1 l2 h N S32 SM NE HH.
  assert (P : 0 < length l1) by (destruct l1; [contradiction|cbn; lia]).
  pose proof (app_length l1 l2) as LA.
  split; [|split].
  - intro H. destruct HH as [_ H2]. rewrite H2. replace (length l1 - 1 + 1) with (length l1) by lia.
    replace ((h <=? length l1) && (length l1 <=? length (l1 ++ l2))) with true by lia. reflexivity.
  - intro H. destruct HH as [_ H2]. rewrite H2. replace (length l1 - 1 + 1) with (length l1) by lia.
    replace ((h <=? length l1) && (length l1 <=? length (l1 ++ l2))) with false by lia. reflexivity.
  - intros D R. destruct (C135_kept n Sz L junk (l1 ++ l2) h N S32 SM) as [_ K]; [now destruct l1|exact HH|].
    apply K; try lia. rewrite skipn_app, skipn_all, Nat.sub_diag. cbn. exact R.
Qed.
Example C137_follow_ex : small 20 80 (firstn 4 six ++ skipn 4 six) /\ firstn 4 six <> [] /\ length (skipn 4 six) < 5 /\ rooms (skipn 4 six) + 20 <= 80 /\
  lines_since (write_all (init 5 80 junk0) six) 3 = map Some [(4, stamp0, [5; 5; 5; 5]%N); (5, stamp0, [6; 6]%N)].
Proof. split; [exact six_small|]. split; [discriminate|]. split; [cbn; lia|]. split; [cbn; lia|]. reflexivity. Qed.

(** * C138: speculative logging *)
Definition C138_full : Prop := forall n Sz L junk l, 3 <= n -> (Z.of_nat Sz < 2 ^ 32)%Z -> small L Sz l ->
  length l < n -> rooms l + L <= Sz -> speculate_commit n Sz junk l = map Some (from l 0).
Theorem C138_first_lost_partial : forall n Sz L junk l, 3 <= n -> (Z.of_nat Sz < 2 ^ 32)%Z -> small L Sz l ->
  length l < n -> rooms l + L <= Sz -> speculate_commit n Sz junk l = map Some (from l 1).
Proof.
  intros n Sz L junk l N S32 SM D R. destruct (inv_all n Sz L junk l N SM) as [I _]. destruct SM as [SL F].
  unfold speculate_commit. rewrite (inv_memory n Sz L _ l 0 N SL S32 F I). unfold last_lines. cbn [Nat.eqb].
  assert (head (write_all (init n Sz junk) l) <= 0) by (apply (inv_kept n Sz L _ l 0 I); cbn [skipn]; lia).
  replace (head (write_all (init n Sz junk) l)) with 0 by lia. now rewrite from_tl.
Qed.
Example C138_first_lost_partial_ex : small 20 80 (firstn 3 six) /\ length (firstn 3 six) < 5 /\ rooms (firstn 3 six) + 20 <= 80 /\
  speculate_commit 5 80 junk0 (firstn 3 six) = map Some [(1, stamp0, [2; 2; 2; 2]%N); (2, stamp0, [3; 3; 3]%N)].
Proof. split; [split; [lia|repeat constructor; cbn; lia]|]. split; [cbn; lia|]. split; [cbn; lia|]. reflexivity. Qed.
Theorem C138_refuted : ~ C138_full.
Proof.
  intro F. specialize (F 3 80 20 junk0 [msg 2 1] ltac:(lia) ltac:(lia)).
  assert (G : speculate_commit 3 80 junk0 [msg 2 1] = []) by reflexivity. rewrite G in F. discriminate F.
  - split; [lia|repeat constructor; cbn; lia].
  - cbn. lia.
  - cbn. lia.
Qed.
Example C138_refuted_ex : speculate_commit 3 80 junk0 [msg 2 1] = [] /\ from [msg 2 1] 0 = [(0, stamp0, [1; 1]%N)].
Proof. split; reflexivity. Qed.

(** * C139: a line that fits in the log is logged *)
Definition C139_full : Prop := forall n Sz junk l, 3 <= n -> (Z.of_nat Sz < 2 ^ 32)%Z ->
  Forall (fun m => stamped m /\ room m <= Sz) l -> answers (init n Sz junk) l = map (fun m => Some (room m)) l.
Theorem C139_logged_partial : forall n Sz L junk l, 3 <= n -> small L Sz l ->
  answers (init n Sz junk) l = map (fun m => Some (room m)) l.
Proof. intros n Sz L junk l N SM. apply (inv_all n Sz L junk l N SM). Qed.
Example C139_logged_partial_ex : small 20 80 six /\ answers (init 5 80 junk0) six = map Some [18; 20; 19; 17; 20; 18].
Proof. split; [exact six_small|reflexivity]. Qed.
(** A second line that does not fit beside the first is lost, and so is every line after it. *)
Theorem C139_stuck : forall n Sz junk a m l, 2 <= n -> room a <= Sz -> room m <= Sz -> Sz < room a + room m ->
  answers (init n Sz junk) (a :: m :: l) = Some (room a) :: Some 0 :: map (fun _ => Some 0) l.
Proof.
  intros n Sz junk a m l N A M W. cbn [answers]. destruct (stuck_two n Sz junk a m N A M W) as [E1 [E2 T]].
  rewrite E1, E2. f_equal. f_equal. now apply stuck_all.
Qed.
Example C139_stuck_ex : room (msg 8 1) <= 40 /\ 40 < room (msg 8 1) + room (msg 8 2) /\
  answers (init 3 40 junk0) [msg 8 1; msg 8 2; msg 0 3; msg 1 4] = map Some [24; 0; 0; 0].
Proof. split; [cbn; lia|]. split; [cbn; lia|]. reflexivity. Qed.
Theorem C139_refuted : ~ C139_full.
Proof.
  intro F. specialize (F 3 40 junk0 [msg 8 1; msg 8 2] ltac:(lia) ltac:(lia)).
  rewrite (C139_stuck 3 40 junk0 (msg 8 1) (msg 8 2) []) in F by (cbn; lia). discriminate F. repeat constructor; cbn; lia.
Qed.
Example C139_refuted_ex : answers (init 5 100 junk0) [msg 24 1; msg 24 2; msg 14 3] = map Some [40; 40; 0].
Proof. reflexivity. Qed.

(** * C140: nothing is written outside of the log's memory *)
Theorem C140_inside : forall n Sz junk l, Forall stamped l ->
  let b := write_all (init n Sz junk) l in
  Forall2 (fun m a => a = Some 0 \/ a = Some (room m)) l (answers (init n Sz junk) l) /\
  forall i, Sz <= i -> segment b i = junk i.
Proof.
  intros n Sz junk l F. cbv zeta.
  assert (G : forall l b, Forall stamped l ->
    Forall2 (fun m a => a = Some 0 \/ a = Some (room m)) l (answers b l) /\
    size (write_all b l) = size b /\ forall i, size b <= i -> segment (write_all b l) i = segment b i).
  { clear. induction l as [|m l IH]; intros b F.
    - cbn. auto.
    - inversion_clear F as [|x y A B]. destruct (writev_inside b (fst m) (snd m) A) as [W1 [W2 [W3 W4]]].
      destruct (IH (snd (writev b (fst m) (snd m))) B) as [I1 [I2 I3]].
      unfold write_all in *. cbn [answers fold_left]. split; [|split].
      + constructor; [|exact I1]. destruct (fst (writev b (fst m) (snd m))) as [[|x]|] eqn:E; [now left|right|contradiction].
        apply W2. discriminate.
      + now rewrite I2.
      + intros i H. rewrite I3 by lia. now apply W4. }
  destruct (G l (init n Sz junk) F) as [A [_ C]]. split; [exact A|exact C].
Qed.
Example C140_inside_ex : Forall stamped [msg 8 1; msg 30 2; msg 8 2; msg 0 3] /\
  answers (init 3 40 junk0) [msg 8 1; msg 30 2; msg 8 2; msg 0 3] = map Some [24; 0; 0; 0].
Proof. split; [repeat constructor|reflexivity]. Qed.

Print Assumptions C134_intact_partial.
Print Assumptions C134_refuted.
Print Assumptions C134_corrupt.
Print Assumptions C135_kept.
Print Assumptions C136_all_but_one_partial.
Print Assumptions C136_refuted.
Print Assumptions C137_follow.
Print Assumptions C138_first_lost_partial.
Print Assumptions C138_refuted.
Print Assumptions C139_logged_partial.
Print Assumptions C139_stuck.
Print Assumptions C139_refuted.
Print Assumptions C140_inside.
