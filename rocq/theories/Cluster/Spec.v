(** What the cluster API promises, apart from how mtev_cluster.c keeps it. *)
From Coq Require Import Arith NArith ZArith List Bool Permutation.
From Verif.Cluster Require Import Model.
Import ListNotations.
Local Open Scope N_scope.

Definition byte (x : N) : Prop := x < 256.
(** a time that fits the wire: 40 bits of seconds, microseconds *)
Definition wire_time (t : tv) : Prop := (0 <= sec t < 2 ^ 40)%Z /\ (0 <= usec t < 2 ^ 24)%Z.
Definition valid_time (t : tv) : Prop := (0 <= sec t)%Z /\ (0 <= usec t < 1000000)%Z.
(** microseconds since the epoch *)
Definition micros (t : tv) : Z := (sec t * 1000000 + usec t)%Z.
Definition earlier_or_same (a b : tv) : Prop := (sec a < sec b)%Z \/ (sec a = sec b /\ usec a <= usec b)%Z.

(** a set of registered payloads *)
Definition sum_data (tbl : list entry) : N := N.of_nat (length (concat (map data tbl))).
Definition entry_ok (e : entry) : Prop := byte (app e) /\ byte (key e) /\ (length (data e) < 256)%nat /\ Forall byte (data e).
Definition table_ok (tbl : list entry) : Prop :=
  Forall entry_ok tbl /\ NoDup (map (fun e => (app e, key e)) tbl) /\ sum_data tbl <= 1512.
(** how it travels: a table of contents, then the contents *)
Definition table_bytes (tbl : list entry) : list N :=
  flat_map (fun e => [app e; key e; N.of_nat (length (data e))]) tbl ++ concat (map data tbl).

(** the message stored for a node *)
Definition payload_of (n : node) : list N := firstn (N.to_nat (plen n)) (match buf n with Some b => b | None => [] end).
(** what a receiver knows of a node *)
Definition view (n : node) (t : tv) (s : N) (tbl : list entry) : Prop :=
  boot n = t /\ cseq n = s /\ payload_of n = table_bytes tbl /\ npay n = N.of_nat (length tbl).
Definition member (w : world) (i : nat) (id : list N) : Prop :=
  exists n, nth_error (nodes w) i = Some n /\ nid n = id.

(** a sender *)
Record sender := { s_id : list N; s_boot : tv; s_seq : N; s_table : list entry }.
Definition sender_ok (x : sender) : Prop :=
  length (s_id x) = 16%nat /\ Forall byte (s_id x) /\ wire_time (s_boot x) /\ s_seq x < 2 ^ 64 /\
  table_ok (s_table x) /\ (length (s_table x) < 256)%nat.
(** histories of a receiver whose peers all speak the protocol *)
Inductive history (ids : list (list N)) (my : list N) (mb : tv) (tmo mat : Z) : world -> Prop :=
| Start : history ids my mb tmo mat {| me := my; my_boot := mb; nodes := map fresh ids; oldest := None; timeout := tmo; maturity := mat; log := [] |}
| Hear w x len msg now r : history ids my mb tmo mat w -> sender_ok x ->
    compose (s_id x) (s_boot x) (s_seq x) (s_table x) len = inl msg -> history ids my mb tmo mat (snd (process msg now r w))
| Tick w now r : history ids my mb tmo mat w -> history ids my mb tmo mat (check_timeout now r w).

(** asking for (a, k) gives the bytes [d], all of them inside the stored message *)
Definition returns (n : node) (a k : N) (d : list N) : Prop :=
  exists off, get_payload n a k = Slice off (N.of_nat (length d)) /\ off + N.of_nat (length d) <= plen n /\
  firstn (length d) (skipn (N.to_nat off) (payload_of n)) = d.
(** the stored message is that of [tbl] *)
Definition holds (n : node) (tbl : list entry) : Prop :=
  payload_of n = table_bytes tbl /\ npay n = N.of_nat (length tbl) /\
  exists b, buf n = Some b /\ plen n <= N.of_nat (length b).
(** where the contents of entry [i] start *)
Definition place (tbl : list entry) (i : nat) : N := 3 * N.of_nat (length tbl) + sum_data (firstn i tbl).

(** liveness and age *)
Definition live (l : list node) (i : nat) : Prop := exists n, nth_error l i = Some n /\ boot n <> {| sec := 0; usec := 0 |}.
Definition is_oldest (l : list node) (o : nat) : Prop :=
  live l o /\ forall j n m, nth_error l o = Some n -> nth_error l j = Some m -> live l j -> earlier_or_same (boot n) (boot m).
(** the recorded oldest node is right *)
Definition oldest_right (w : world) : Prop :=
  (exists j, live (nodes w) j) -> exists o, oldest w = Some o /\ is_oldest (nodes w) o.
(** any history of a receiver: any messages and checks *)
Inductive step := Msg (m : list N) (now : tv) (r : N) | Check (now : tv) (r : N).
Definition apply (w : world) (s : step) : world :=
  match s with Msg m now r => snd (process m now r w) | Check now r => check_timeout now r w end.

(** sizes on the wire: Ethernet header, IP header, the heartbeat, checksum *)
Definition frame (msg : list N) : N := 14 + 20 + N.of_nat (length msg) + 4.
(** one call that changes the table of payloads *)
Inductive table_op := SetP (pos : nat) (a k : N) (d : list N) | UnsetP (a k : N).
Definition table_step (tbl : list entry) (o : table_op) : list entry :=
  match o with SetP pos a k d => snd (set_payload pos a k d tbl) | UnsetP a k => snd (unset_payload a k tbl) end.
Definition op_ok (o : table_op) : Prop :=
  match o with SetP _ a k d => byte a /\ byte k /\ (length d < 256)%nat /\ Forall byte d | UnsetP a k => byte a /\ byte k end.
(** the table as a map *)
Definition registered_as (tbl : list entry) (a k : N) (d : list N) : Prop := In {| app := a; key := k; data := d |} tbl.

(** sorting node ids: what qsort by uuid does *)
Fixpoint id_le (a b : list N) : Prop :=
  match a, b with
  | [], _ => True
  | x :: a', y :: b' => x < y \/ (x = y /\ id_le a' b')
  | _, [] => False
  end.
Definition sorts (f : list (list N) -> list (list N)) : Prop :=
  forall l, Permutation l (f l) /\ forall a b c, f l = a ++ b :: c -> Forall (id_le b) c.
(** the answers of mtev_cluster_update, mtev_cluster.h:76: -1 error, 0 inserted, 1 updated (and 2,
    mtev_cluster.c:796: nothing to do, what is there is as recent) *)
Definition answers (name : list N) (rv : Z) (g g' : registry) : Prop :=
  (rv = (-1)%Z /\ g' = g) \/
  (rv = 0%Z /\ retrieve g name = None /\ exists x, retrieve g' name = Some x) \/
  (rv = 1%Z /\ exists x y, retrieve g name = Some x /\ retrieve g' name = Some y /\ (r_seq x < r_seq y)%Z) \/
  (rv = 2%Z /\ g' = g /\ exists x, retrieve g name = Some x).
(** attributes in range, as the administrator wrote them *)
Definition as_written (a : attr) (dflt v : Z) : Prop :=
  match a with Text x _ => v = x | _ => v = dflt end.
(** the sender and the boot time a message carries: bytes 1-16, 17-21 and 22-24 *)
Definition message_id (m : list N) : list N := firstn 16 (skipn 1 m).
Definition number (l : list N) : N := fold_left (fun a b => a * 256 + b) l 0.
Definition message_time (m : list N) : tv :=
  {| sec := Z.of_N (number (firstn 5 (skipn 17 m))); usec := Z.of_N (number (firstn 3 (skipn 22 m))) |}.
Definition message_seq (m : list N) : N := number (firstn 8 (skipn 25 m)).
Definition message_payload (m : list N) : list N := skipn 34 m.
(** the message is well formed and not too long for a UDP datagram *)
Definition understood (m : list N) : Prop :=
  Forall byte m /\ (34 <= length m < N.to_nat 65536)%nat /\ hd 0 m / 16 = 1 /\ hd 0 m mod 16 <> 0.
(** neither of the two events that derail the incremental choice happens: a peer with exactly our
    boot time; a node coming back when all are dead, other than the one still recorded as oldest *)
Definition no_clash (w : world) (m : list N) : Prop := message_time m = my_boot w -> message_id m = me w.
Definition no_revival (w : world) (m : list N) : Prop :=
  (exists j, live (nodes w) j) \/ oldest w = None \/ message_time m = {| sec := 0; usec := 0 |} \/
  exists o, oldest w = Some o /\ member w o (message_id m).
Definition calm_step (w : world) (s : step) : Prop :=
  match s with Msg m _ _ => Forall byte m /\ no_clash w m /\ no_revival w m | Check _ _ => True end.
Fixpoint calm (w : world) (l : list step) : Prop :=
  match l with [] => True | s :: r => calm_step w s /\ calm (apply w s) r end.
Definition start (ids : list (list N)) (my : list N) (mb : tv) (tmo mat : Z) : world :=
  {| me := my; my_boot := mb; nodes := map fresh ids; oldest := None; timeout := tmo; maturity := mat; log := [] |}.
(** silent for more than [d] whole milliseconds *)
Definition since (now t : tv) (d : Z) : Prop := (micros now - micros t >= 1000 * (d + 1))%Z.

(** nothing but the boot time differs *)
Definition same_but_boot (a b : node) : Prop :=
  nid a = nid b /\ contact a = contact b /\ cseq a = cseq b /\ buf a = buf b /\ plen a = plen b /\ npay a = npay b.
(** the length recorded for the stored payload is its length *)
Definition stored_wf_node (n : node) : Prop := N.of_nat (length (payload_of n)) = plen n.
(** a node element that is right, and one that only its address makes wrong *)
Definition good_node (n : node_conf) : Prop :=
  c_id n <> None /\ c_cn n = true /\ exists p, c_port n = Some p /\ (0 <= p <= 65535)%Z /\ (c_addr n = V4 \/ c_addr n = V6).
Definition refused_by_address (n : node_conf) : bool :=
  match c_id n, c_cn n, c_port n with Some _, true, Some p => negb ((p <? 0)%Z || (p >? 65535)%Z) | _, _, _ => false end.
(** how many of [n] nodes own a key when asked for [w]; owner lists are cut at 256 *)
Definition wanted (w : Z) (n : nat) : nat := Z.to_nat (Z.min (Z.min w (Z.of_nat n)) 256).
Definition at_least_one (w : Z) : Z := if (w <? 0)%Z then 1%Z else w.
