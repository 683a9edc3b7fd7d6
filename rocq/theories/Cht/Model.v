(** Model of src/utils/mtev_cht.c.  The hash function (mtev_hash__hash) and qsort are parameters;
    node names are byte lists.  Not modelled: userdata and the release of replaced nodes
    (mtev_cht.c:185-190), vnode (never read), malloc failure.  [owned] is kept as the numerator of
    the double, over max+1. *)
From Coq Require Import Arith NArith ZArith List Bool.
Import ListNotations.
Local Open Scope N_scope.

(** struct ring_pos, mtev_cht.c:40-44 *)
Record rp := { pos : N; node_idx : nat }.
(** struct mtev_cht, mtev_cht.c:45-52; the length of [names] is node_cnt *)
Record cht := { nbits : N; weight : nat; names : list (list N); ring : list rp }.

(** mtev_cht_alloc_custom, mtev_cht.c:161-171 (arguments uint16_t, uint8_t) *)
Definition alloc_custom (w : nat) (nb : N) : cht :=
  let nb := if nb =? 0 then 32 else nb in                                    (* :165 *)
  let nb := if 32 <? nb then 32 else nb in                                   (* :166 *)
  let nb := if nb <? 16 then 16 else nb in                                   (* :167 *)
  {| nbits := nb; weight := if (w <? 1)%nat then 1%nat else w; names := []; ring := [] |}.

(** mtev_cht_hash, mtev_cht.c:54-62: [H key initval] is mtev_hash__hash, a uint32_t *)
Definition hash (H : list N -> N -> N) (nb : N) (key : list N) (ival : N) : N :=
  N.land (N.land (H key ival) (N.ones 32)) (N.ones nb).
(** the variable max, mtev_cht.c:86-87 *)
Definition maxpos (nb : N) : N := N.ones nb.

(** first loop of mtev_cht_calculate_ring, mtev_cht.c:90-99; node_idx is an unsigned short *)
Definition entries (H : list N -> N -> N) (nb : N) (w : nat) (ns : list (list N)) : list rp :=
  flat_map (fun p : nat * list N =>
              map (fun j => {| pos := hash H nb (snd p) (N.of_nat j); node_idx := N.to_nat (N.of_nat (fst p) mod 65536) |}) (seq 0 w))
           (combine (seq 0 (length ns)) ns).

(** ring[i].pos and a store to it, mtev_cht.c:104-143 *)
Definition at_ (r : list rp) (i : nat) : N := match nth_error r i with Some x => pos x | None => 0 end.
Fixpoint upd (r : list rp) (i : nat) (v : N) : list rp :=
  match r, i with
  | [], _ => []
  | x :: t, O => {| pos := v; node_idx := node_idx x |} :: t
  | x :: t, S i' => x :: upd t i' v
  end.

(** the inner loop of the downward pass, mtev_cht.c:113-120; [v] is e->pos, which it never changes *)
Fixpoint dec_from (i : nat) (v : N) (r : list rp) : list rp * bool :=
  match i with
  | O => (r, false)
  | S i' =>
      if (at_ r i =? v) && (0 <? at_ r i)
      then (fst (dec_from i' v (upd r i (at_ r i - 1))), true)
      else dec_from i' v r
  end.
(** one downward pass, mtev_cht.c:107-122; the inner loop leaves i = 0, which ends the for *)
Fixpoint pass_down (i : nat) (r : list rp) : list rp * bool :=
  match i with
  | O => (r, false)
  | S i' => if (at_ r i' =? at_ r i) && negb (at_ r i' =? 0) then dec_from i' (at_ r i) r else pass_down i' r
  end.
(** mtev_cht.c:106-123 *)
Fixpoint fix_down (fuel : nat) (r : list rp) : option (list rp) :=
  match fuel with
  | O => None
  | S f => let (r', c) := pass_down (length r - 1) r in if c then fix_down f r' else Some r'
  end.

(** the inner loop of the upward pass, mtev_cht.c:133-140, [n] = rsize - i iterations left; [v] is s->pos *)
Fixpoint inc_from (n : nat) (i : nat) (v max : N) (r : list rp) : list rp * bool :=
  match n with
  | O => (r, false)
  | S n' =>
      if (v =? at_ r i) && (at_ r i <? max)
      then (fst (inc_from n' (S i) v max (upd r i (at_ r i + 1))), true)
      else inc_from n' (S i) v max r
  end.
(** one upward pass, mtev_cht.c:127-142, [n] = rsize - 1 - i; the inner loop leaves i = rsize *)
Fixpoint pass_up (n : nat) (i : nat) (max : N) (r : list rp) : list rp * bool :=
  match n with
  | O => (r, false)
  | S n' =>
      if (at_ r i =? at_ r (S i)) && negb (at_ r (S i) =? max)
      then inc_from (length r - S i) (S i) (at_ r i) max r
      else pass_up n' (S i) max r
  end.
(** mtev_cht.c:125-143 *)
Fixpoint fix_up (fuel : nat) (max : N) (r : list rp) : option (list rp) :=
  match fuel with
  | O => None
  | S f => let (r', c) := pass_up (length r - 1) 0 max r in if c then fix_up f max r' else Some r'
  end.

(** mtev_cht_calculate_ring, mtev_cht.c:78-143; [None] = out of fuel *)
Definition calculate_ring (fuel : nat) (srt : list rp -> list rp) (H : list N -> N -> N) (nb : N) (w : nat) (ns : list (list N)) : option (list rp) :=
  match fix_down fuel (srt (entries H nb w ns)) with
  | Some r => fix_up fuel (maxpos nb) r
  | None => None
  end.

(** owned of node [i] times max+1, mtev_cht.c:145-158: the differences are uint32_t *)
Fixpoint owned_arcs (i : nat) (r : list rp) : N :=
  match r with
  | s :: ((e :: _) as t) => (if (node_idx s =? i)%nat then (pos e + 2 ^ 32 - pos s) mod 2 ^ 32 else 0) + owned_arcs i t
  | _ => 0
  end.
Definition owned (nb : N) (r : list rp) (i : nat) : N :=
  owned_arcs i r +
  match r, rev r with
  | f :: _, s :: _ => if (node_idx s =? i)%nat then maxpos nb - pos s + 1 + pos f else 0   (* :154-158 *)
  | _, _ => 0
  end.

(** while(node_cnt * weight > (1 << nbits)) node_cnt--, mtev_cht.c:193 *)
Fixpoint clip (nb : N) (w cnt : nat) : nat :=
  match cnt with
  | O => O
  | S c => if 2 ^ nb <? N.of_nat (cnt * w) then clip nb w c else cnt
  end.

(** outcome of mtev_cht_set_nodes *)
Inductive set_result := Set_ (c : cht) (cnt : nat) | SetNoFuel | SetUB.
(** mtev_cht_set_nodes, mtev_cht.c:182-203.  [SetUB]: 1 << 31 (:193) and int overflow of
    node_cnt * weight *)
Definition set_nodes (fuel : nat) (srt : list rp -> list rp) (H : list N -> N -> N) (c : cht) (ns : list (list N)) : set_result :=
  if 2 ^ 31 <=? N.of_nat (length ns * weight c) then SetUB
  else if nbits c =? 31 then SetUB
  else
    let cnt := if nbits c <? 32 then clip (nbits c) (weight c) (length ns) else length ns in
    let ns := firstn cnt ns in
    if (0 <? cnt)%nat then
      match calculate_ring fuel srt H (nbits c) (weight c) ns with
      | Some r => Set_ {| nbits := nbits c; weight := weight c; names := ns; ring := r |} cnt
      | None => SetNoFuel
      end
    else Set_ {| nbits := nbits c; weight := weight c; names := []; ring := [] |} 0.

(** the binary search, mtev_cht.c:219-228; yields m *)
Fixpoint bsearch (fuel : nat) (r : list rp) (h : N) (l rr m : nat) : option nat :=
  match fuel with
  | O => None
  | S f =>
      if (l <? rr)%nat then
        let m := ((l + rr) / 2)%nat in
        if h =? at_ r m then Some m
        else if h <? at_ r m then bsearch f r h l m m
        else if (l =? m)%nat then Some m
        else bsearch f r h m rr m
      else Some m
  end.

(** iarrcontains, mtev_cht.c:64-68, on the first w_out elements of found (latest first) *)
Definition contains (found : list nat) (id : nat) : bool := existsb (fun x => (x =? id)%nat) found.
(** ring[i].node_idx *)
Definition idx (r : list rp) (i : nat) : nat := match nth_error r i with Some x => node_idx x | None => O end.
(** the loop at mtev_cht.c:235-240, [n] = rsize+m-i; [found] latest first *)
Fixpoint collect (n : nat) (i : nat) (r : list rp) (w cnt : nat) (found : list nat) : list nat :=
  match n with
  | O => found
  | S n' =>
      if (length found <? w)%nat && (length found <? cnt)%nat then
        let id := idx r (i mod length r) in
        collect n' (S i) r w cnt (if contains found id then found else id :: found)
      else found
  end.

(** outcome of mtev_cht_vlookup_n: the nodes stored (as indices), in order *)
Inductive look := Nodes (l : list nat) | MinusOne | AssertFailed | LookNoFuel.
(** mtev_cht_vlookup_n, mtev_cht.c:205-247, given the hash of the key (mtev_cht.c:216) *)
Definition vlookup_h (c : cht) (h : N) (w : Z) : look :=
  let w := Z.to_nat (if (256 <? w)%Z then 256%Z else w) in                   (* :213-214, CHT_MAX_W *)
  let cnt := length (names c) in
  let rsize := (cnt * weight c)%nat in
  if (cnt <? 1)%nat then MinusOne else                                       (* :215 *)
  match bsearch (S (S rsize)) (ring c) h 0 rsize 0 with
  | None => LookNoFuel
  | Some m =>
      let under := h <? at_ (ring c) m in
      if under && negb (m =? 0)%nat then AssertFailed else                   (* :232 *)
      let m := if under then (rsize - 1)%nat else m in
      let found := collect rsize m (ring c) w cnt [] in                      (* :235-240 *)
      let found := if (length found <? w)%nat then idx (ring c) m :: found else found in   (* :241-243 *)
      Nodes (firstn w (rev found))                                           (* :244-246 *)
  end.
(** mtev_cht_vlookup_n, mtev_cht.c:205-247 *)
Definition vlookup_n (H : list N -> N -> N) (c : cht) (key : list N) (w : Z) : look :=
  vlookup_h c (hash H (nbits c) key 20021010) w.
(** mtev_cht_vlookup, mtev_cht.c:252-256 *)
Definition vlookup (H : list N -> N -> N) (c : cht) (key : list N) : look := vlookup_n H c key 1.
