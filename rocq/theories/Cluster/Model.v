(** Model of src/mtev_cluster.c: heartbeat messages, the view of the other nodes, oldest node,
    timeouts, payloads, key ownership, cluster updates.  One cluster at a time; the clock and
    mtev_rand are arguments.  Simplified: hash tables are lists in iteration order, malloc succeeds,
    names, addresses and keys are carried but not used, the XML/JSON/REST output and the extra-config
    hooks are left out, the caller does not change the memory of a registered payload. *)
From Coq Require Import Arith NArith ZArith List Bool.
From Verif.Uuid Require Import Model.
From Verif.Cht Require Import Model.
Import ListNotations.
Local Open Scope N_scope.

(** struct timeval, used at mtev_cluster.c:49 and 83-84 *)
Record tv := { sec : Z; usec : Z }.
(** compare_timeval, mtev_defines.h:134-140; -1, 0, 1 as Lt, Eq, Gt *)
Definition compare_timeval (a b : tv) : comparison :=
  if (sec a <? sec b)%Z then Lt else if (sec a >? sec b)%Z then Gt
  else if (usec a <? usec b)%Z then Lt else if (usec a >? usec b)%Z then Gt else Eq.
(** sub_timeval, mtev_defines.h:142-155 *)
Definition sub_timeval (a b : tv) : tv :=
  let u := (usec a - usec b)%Z in
  let (s, u) := if (u <? 0)%Z then (sec a - 1, u + 1000000)%Z else (sec a, u) in
  let s := (s - sec b)%Z in
  if (s <? 0)%Z then {| sec := s + 1; usec := u - 1000000 |} else {| sec := s; usec := u |}.
(** sub_timeval_ms, mtev_defines.h:164-169; C division truncates *)
Definition sub_timeval_ms (a b : tv) : Z := let d := sub_timeval a b in (sec d * 1000 + Z.quot (usec d) 1000)%Z.

(** boot_time_of_dead_node, mtev_cluster.c:51 *)
Definition boot_time_of_dead_node : tv := {| sec := 0; usec := 0 |}.

(** mtev_cluster_node_t, mtev_cluster.c:75-90; [buf] is what payload points to, all of it, [None] for
    NULL; only the first [plen] bytes are the message *)
Record node := { nid : list N; boot : tv; contact : tv; cseq : N; buf : option (list N); plen : N; npay : N }.
(** the calloc'ed node of a new cluster, mtev_cluster.c:723 *)
Definition fresh (id : list N) : node :=
  {| nid := id; boot := boot_time_of_dead_node; contact := boot_time_of_dead_node; cseq := 0; buf := None; plen := 0; npay := 0 |}.

(** one call of the node update hook, mtev_cluster.c:151-157 and 329 *)
Record event := { what : N; who : nat; old_boot : tv }.
(** MTEV_CLUSTER_NODE_DIED .. CHANGED_PAYLOAD, mtev_cluster.h:49-52 *)
Definition DIED : N := 1.
Definition REBOOTED : N := 2.
Definition CHANGED_SEQ : N := 4.
Definition CHANGED_PAYLOAD : N := 8.

(** my_cluster_id and my_boot_time (mtev_cluster.c:45-46) and one mtev_cluster_t (:129-143):
    nodes, oldest_node (as an index), timeout, maturity; [log] is the hook calls so far *)
Record world := { me : list N; my_boot : tv; nodes : list node; oldest : option nat;
                  timeout : Z; maturity : Z; log : list event }.
(** stores to single fields *)
Definition with_nodes (w : world) (l : list node) : world :=
  {| me := me w; my_boot := my_boot w; nodes := l; oldest := oldest w; timeout := timeout w; maturity := maturity w; log := log w |}.
Definition with_oldest (w : world) (o : option nat) : world :=
  {| me := me w; my_boot := my_boot w; nodes := nodes w; oldest := o; timeout := timeout w; maturity := maturity w; log := log w |}.
Definition with_my_boot (w : world) (t : tv) : world :=
  {| me := me w; my_boot := t; nodes := nodes w; oldest := oldest w; timeout := timeout w; maturity := maturity w; log := log w |}.
Definition with_event (w : world) (e : event) : world :=
  {| me := me w; my_boot := my_boot w; nodes := nodes w; oldest := oldest w; timeout := timeout w; maturity := maturity w; log := log w ++ [e] |}.

(** cluster->nodes[i] and a store to it *)
Definition nth_node (l : list node) (i : nat) : node := nth i l (fresh []).
Fixpoint set_nth (l : list node) (i : nat) (x : node) : list node :=
  match l, i with
  | [], _ => []
  | _ :: t, O => x :: t
  | y :: t, S i' => y :: set_nth t i' x
  end.

(** mtev_uuid_compare == 0 on two uuids, mtev_cluster.c:210, 217 *)
Fixpoint same_id (a b : list N) : bool :=
  match a, b with
  | [], [] => true
  | x :: a', y :: b' => (x =? y) && same_id a' b'
  | _, _ => false
  end.
(** mtev_cluster_node_is_dead, mtev_cluster.c:201-204 *)
Definition is_dead (n : node) : bool :=
  match compare_timeval (boot n) boot_time_of_dead_node with Eq => true | _ => false end.
(** mtev_cluster_find_node, mtev_cluster.c:213-221; [i] is the index of the head of [l] *)
Fixpoint find_node (l : list node) (id : list N) (i : nat) : option nat :=
  match l with
  | [] => None
  | n :: t => if same_id (nid n) id then Some i else find_node t id (S i)
  end.

(** one round of mtev_cluster_find_oldest_node, mtev_cluster.c:288-294 *)
Definition older (l : list node) (o i : nat) : nat :=
  if is_dead (nth_node l o)
     || (match compare_timeval (boot (nth_node l i)) (boot (nth_node l o)) with Lt => true | _ => false end
         && negb (is_dead (nth_node l i)))
  then i else o.
(** mtev_cluster_find_oldest_node, mtev_cluster.c:284-296 *)
Definition find_oldest (l : list node) : nat := fold_left (older l) (seq 1 (length l - 1)) O.

(** sender->boot_time = ..; sender->config_seq = .., mtev_cluster.c:303-304 *)
Definition with_boot (n : node) (t : tv) (s : N) : node :=
  {| nid := nid n; boot := t; contact := contact n; cseq := s; buf := buf n; plen := plen n; npay := npay n |}.
(** mtev_cluster_on_node_changed, mtev_cluster.c:298-330; [r] is what mtev_rand would return *)
Definition on_node_changed (w : world) (i : nat) (t : tv) (s : N) (ch : N) (r : N) : world :=
  let old := boot (nth_node (nodes w) i) in                                  (* :302 *)
  let n := with_boot (nth_node (nodes w) i) t s in
  let w := with_nodes w (set_nth (nodes w) i n) in
  if negb (same_id (me w) (nid n)) && match compare_timeval t (my_boot w) with Eq => true | _ => false end
  then with_my_boot w {| sec := sec (my_boot w); usec := Z.of_N (r mod 1000000) |}        (* :313-314 *)
  else
    let w :=
      if is_dead n || match oldest w with Some o => (o =? i)%nat | None => false end      (* :318 *)
      then with_oldest w (Some (find_oldest (nodes w)))
      else match oldest w with
           | None => with_oldest w (Some i)                                  (* :320-321 *)
           | Some o => match compare_timeval t (boot (nth_node (nodes w) o)) with Lt => with_oldest w (Some i) | _ => w end
           end in
    with_event w {| what := ch; who := i; old_boot := old |}.

(** one round of mtev_cluster_check_timeout, mtev_cluster.c:334-347 *)
Definition check_node (now : tv) (r : N) (w : world) (i : nat) : world :=
  let n := nth_node (nodes w) i in
  if (sub_timeval_ms now (contact n) >? timeout w)%Z && negb (is_dead n)
     && (sec (boot n) >? 0)%Z && (sub_timeval_ms now (boot n) >? maturity w)%Z
  then on_node_changed w i boot_time_of_dead_node (cseq n) DIED r
  else w.
(** mtev_cluster_check_timeout, mtev_cluster.c:331-349 *)
Definition check_timeout (now : tv) (r : N) (w : world) : world := fold_left (check_node now r) (seq 0 (length (nodes w))) w.

(** hb_payload_t, mtev_cluster.c:68-73; the table hb_payloads is a list of them in iteration order *)
Record entry := { app : N; key : N; data : list N }.
(** the low [n] bytes of [x], most significant first: htonll, mtev_cluster.c:384-386 *)
Fixpoint be (n : nat) (x : N) : list N :=
  match n with O => [] | S n' => (x / 2 ^ (8 * N.of_nat n')) mod 256 :: be n' x end.
(** packed_time, mtev_cluster.c:382-383 *)
Definition packed_time (t : tv) : N :=
  N.lor (N.shiftl (Z.to_N (sec t mod 2 ^ 40)) 24) (Z.to_N (usec t mod 2 ^ 24)).
(** the pieces written by mtev_cluster_info_compose, mtev_cluster.c:380-404, in order; [number_of_payloads]
    is a uint8_t (:374) *)
Definition pieces (id : list N) (t : tv) (s : N) (tbl : list entry) : list (list N) :=
  let n := N.of_nat (length tbl) mod 256 in
  [[17]; id; be 8 (packed_time t); be 8 s; [n]] ++
  if n =? 0 then []
  else flat_map (fun e => [[app e]; [key e]; [N.of_nat (length (data e)) mod 256]]) tbl ++ map data tbl.
(** the macro MEMWRITE, mtev_cluster.c:252-257, over the pieces: the bytes written or the negative
    return value *)
Fixpoint memwrite (ps : list (list N)) (wa : Z) (out : list N) : list N + Z :=
  match ps with
  | [] => inl out
  | p :: r => if (Z.of_nat (length out + length p) >? wa)%Z then inr (- Z.of_nat (length out + length p))%Z
              else memwrite r wa (out ++ p)
  end.
(** mtev_cluster_info_compose, mtev_cluster.c:362-409, after the timeout check of line 366 *)
Definition compose (id : list N) (t : tv) (s : N) (tbl : list entry) (len : Z) : list N + Z :=
  memwrite (pieces id t s tbl) len [].

(** mtev_cluster_store_payload, mtev_cluster.c:410-426; [payload_length] is the length of [p] *)
Definition store_payload (n : node) (p : list N) (count : N) : node :=
  let len := N.of_nat (length p) in
  let b := match buf n with
           | Some b => if plen n <? len then p else p ++ skipn (length p) b   (* :414-415, 423 *)
           | None => p                                                        (* :416-417, 423 *)
           end in
  {| nid := nid n; boot := boot n; contact := contact n; cseq := cseq n; buf := Some b; plen := len; npay := count |}.

(** ntohll, mtev_cluster.c:450, 454 *)
Definition unbe (l : list N) : N := fold_left (fun a b => a * 256 + b) l 0.
(** memcmp(payload, sender->payload, payload_len) == 0, mtev_cluster.c:484, when the lengths agree *)
Definition same_payload (n : node) (p : list N) : bool :=
  (N.of_nat (length p) =? plen n) && same_id p (firstn (length p) (match buf n with Some b => b | None => [] end)).
(** sender->last_contact = now, mtev_cluster.c:494 *)
Definition with_contact (n : node) (now : tv) : node :=
  {| nid := nid n; boot := boot n; contact := now; cseq := cseq n; buf := buf n; plen := plen n; npay := npay n |}.
(** node_changes as computed at mtev_cluster.c:475-488; 0 = unchanged *)
Definition changes (n : node) (t : tv) (s : N) (p : list N) : N :=
  match compare_timeval (boot n) t with
  | Eq => (if s =? cseq n then 0 else CHANGED_SEQ) + (if same_payload n p then 0 else CHANGED_PAYLOAD)
  | _ => REBOOTED
  end.
(** the update of the sender, mtev_cluster.c:475-494 *)
Definition heard (w : world) (i : nat) (t : tv) (s : N) (p : list N) (count : N) (now : tv) (r : N) : world :=
  let ch := changes (nth_node (nodes w) i) t s p in
  let w := if ch =? 0 then w
           else on_node_changed (with_nodes w (set_nth (nodes w) i (store_payload (nth_node (nodes w) i) p count))) i t s ch r in
  with_nodes w (set_nth (nodes w) i (with_contact (nth_node (nodes w) i) now)).
(** mtev_cluster_info_process, mtev_cluster.c:427-497: return value and effect; payload_len is a
    uint16_t (:440) *)
Definition process (msg : list N) (now : tv) (r : N) (w : world) : Z * world :=
  let len := length msg in
  if (len <? 1)%nat then (0%Z, w) else                                       (* :445 *)
  let v := hd 0 msg in
  if (len <? 17)%nat then ((-1)%Z, w) else                                   (* :448 *)
  let id := firstn 16 (skipn 1 msg) in
  if (len <? 25)%nat then ((-17)%Z, w) else                                  (* :449 *)
  let pt := unbe (firstn 8 (skipn 17 msg)) in
  let t := {| sec := Z.of_N ((pt / 2 ^ 24) mod 2 ^ 40); usec := Z.of_N (pt mod 2 ^ 24) |} in
  if (len <? 33)%nat then ((-25)%Z, w) else                                  (* :453 *)
  let s := unbe (firstn 8 (skipn 25 msg)) in
  if (len <? 34)%nat then ((-33)%Z, w) else                                  (* :455 *)
  let count := nth 33 msg 0 in
  let plen := N.to_nat (N.of_nat (len - 34) mod 65536) in                    (* :457 *)
  let p := firstn plen (skipn 34 msg) in
  if v mod 16 <? 1 then (0%Z, w) else                                        (* :461 *)
  if negb (v / 16 =? 1) then (0%Z, w) else                                   (* :466 *)
  match find_node (nodes w) id 0 with
  | None => (0%Z, w)
  | Some i => (0%Z, heard w i t s p count now r)
  end.

(** outcome of mtev_cluster_get_heartbeat_payload: offset of *payload in the buffer and length, -1,
    or a read outside of the buffer *)
Inductive got := Slice (off len : N) | NotThere | Overrun.
(** the loop at mtev_cluster.c:1043-1050; [i] is the index of hdr, [sum] payload_len_sum *)
Fixpoint scan (fuel : nat) (b : list N) (pl np a k : N) (i : nat) (sum : N) : got :=
  match fuel with
  | O => Overrun
  | S f =>
      if sum <? pl then
        match nth_error b (3 * i) with
        | None => Overrun
        | Some a' =>
            let next :=
              match nth_error b (3 * S i + 2) with                           (* :1048-1049 *)
              | None => Overrun
              | Some l => scan f b pl np a k (S i) (sum + l)
              end in
            if a' =? a then
              match nth_error b (3 * i + 1) with
              | None => Overrun
              | Some k' =>
                  if k' =? k then
                    match nth_error b (3 * i + 2) with
                    | None => Overrun
                    | Some l => Slice (np * 3 + sum) l                       (* :1045-1046 *)
                    end
                  else next
              end
            else next
        end
      else NotThere
  end.
(** mtev_cluster_get_heartbeat_payload, mtev_cluster.c:1032-1053; header [length b] lies outside, so
    the fuel suffices *)
Definition get_payload (n : node) (a k : N) : got :=
  match buf n with
  | None => NotThere
  | Some b => scan (S (length b)) b (plen n) (npay n) a k 0 0
  end.

(** MAX_PAYLOAD_LEN_SUM with HEART_BEAT_HDR_LEN as the preprocessor expands them, mtev_cluster.c:56-57:
    1518 - 14 - 20 - 1 + 16 + 8 + 8 + 1 - 4 *)
Definition max_payload_len_sum : N := 1518 - 14 - 20 - 1 + 16 + 8 + 8 + 1 - 4.
(** the entry registered under (a, k) *)
Definition is_entry (a k : N) (e : entry) : bool := (app e =? a) && (key e =? k).
(** payload_len_sum, mtev_cluster.c:994-1001 *)
Definition others (a k : N) (tbl : list entry) : N :=
  fold_left (fun s e => if is_entry a k e then s else s + N.of_nat (length (data e))) tbl 0.
(** mtev_cluster_set_heartbeat_payload, mtev_cluster.c:982-1021; the entry ends up at position [pos]
    of the iteration order *)
Definition set_payload (pos : nat) (a k : N) (d : list N) (tbl : list entry) : bool * list entry :=
  if max_payload_len_sum <? others a k tbl + N.of_nat (length d) then (false, tbl)      (* :1003 *)
  else let rest := filter (fun e => negb (is_entry a k e)) tbl in
       (true, firstn pos rest ++ {| app := a; key := k; data := d |} :: skipn pos rest).
(** mtev_cluster_unset_heartbeat_payload, mtev_cluster.c:1024-1030 *)
Definition unset_payload (a k : N) (tbl : list entry) : bool * list entry :=
  (existsb (is_entry a k) tbl, filter (fun e => negb (is_entry a k e)) tbl).

(** mtev_cluster_get_nodes, mtev_cluster.c:913-926: the negative return value or the indices stored *)
Definition get_nodes (w : world) (n : Z) (includeme : bool) : Z + list nat :=
  if (n <? Z.of_nat (length (nodes w)))%Z then inl (- Z.of_nat (length (nodes w)))%Z
  else inr (filter (fun i => includeme || negb (same_id (nid (nth_node (nodes w) i)) (me w))) (seq 0 (length (nodes w)))).
(** mtev_cluster_am_i_oldest_visible_node, mtev_cluster.c:1402-1407 *)
Definition am_i_oldest (w : world) : bool :=
  match oldest w with None => true | Some o => same_id (nid (nth_node (nodes w) o)) (me w) end.

(** mtev_cluster_compile, mtev_cluster.c:525-547: the ring over the ids in text; the terminating NUL
    is dropped by strdup.  mtev_cht_alloc gives weight 32 and 32 bits (mtev_cht.c:173-176) *)
Definition compile (fuel : nat) (srt : list rp -> list rp) (H : list N -> N -> N) (ids : list (list N)) : set_result :=
  set_nodes fuel srt H (alloc_custom 32 0) (map (fun u => removelast (unparse_lower u)) ids).
(** mtev_cluster_do_i_own, mtev_cluster.c:928-947; [ids] are the ids of the nodes, [h] the hash of the key *)
Definition do_i_own (c : cht) (ids : list (list N)) (my : list N) (h : N) (w : Z) : bool :=
  let w := if (w <? 0)%Z then 1%Z else w in
  let w := Z.min w (Z.of_nat (length ids)) in
  match vlookup_h c h w with
  | Nodes l => existsb (fun i => same_id (nth i ids []) my) l
  | _ => false
  end.
(** mtev_cluster_filter_owners, mtev_cluster.c:956-980: the return value, set (as indices) and *w;
    [None]: the set is not touched *)
Definition filter_owners (c : cht) (ids : list (list N)) (my : list N) (h : N) (w : Z) (f : nat -> bool -> bool) : bool * option (list nat) :=
  if (w <? 1)%Z then (false, None) else
  match vlookup_h c h (Z.min w (Z.of_nat (length ids))) with
  | Nodes l =>
      let set := filter (fun i => f i (same_id (nth i ids []) my)) l in
      (match set with [] => false | i :: _ => same_id (nth i ids []) my end, Some set)
  | _ => (false, Some [])
  end.

(** a numeric attribute as strtoll sees it: missing, empty, or a text with its value and whether
    something follows the number, mtev_cluster.c:658-709 *)
Inductive attr := Missing | Empty | Text (v : Z) (junk : bool).
(** conversion of strtoll's result to int, mtev_cluster.c:674, 684, 694, 704 *)
Definition to_int (v : Z) : Z := ((v + 2 ^ 31) mod 2 ^ 32 - 2 ^ 31)%Z.
(** the address attribute: missing, or what inet_pton says of it for AF_INET and AF_INET6 *)
Inductive address := NoAddress | V4 | V6 | BadAddress.
(** a node element: id (None = missing or refused by mtev_uuid_parse), cn present, port
    (None = missing or no int), address *)
Record node_conf := { c_id : option (list N); c_cn : bool; c_port : option Z; c_addr : address }.
(** a cluster element, mtev_cluster.c:646-721 *)
Record conf := { c_name : option (list N); c_key : bool; c_seq : attr; c_port_ : attr; c_period : attr;
                 c_timeout : attr; c_maturity : attr; c_nodes : list node_conf }.
(** what is registered under a name: config_seq, port, period, timeout, maturity, node ids in order *)
Record registered := { r_seq : Z; r_port : Z; r_period : Z; r_timeout : Z; r_maturity : Z; r_ids : list (list N) }.

(** the loop over the node elements, mtev_cluster.c:724-776: the ids, or the value of rv at the goto *)
Fixpoint read_nodes (l : list node_conf) (rv : Z) : list (list N) * Z + Z :=
  match l with
  | [] => inl ([], rv)
  | n :: t =>
      match c_id n with
      | None => inr rv                                                       (* :733-737 *)
      | Some id =>
          if negb (c_cn n) then inr rv else                                  (* :738-742 *)
          match c_port n with
          | None => inr rv                                                   (* :743-746 *)
          | Some p =>
              if (p <? 0)%Z || (p >? 65535)%Z then inr rv else
              match c_addr n with
              | NoAddress => inr rv                                          (* :747-750 *)
              | BadAddress => inr 0%Z                                        (* :754-762 *)
              | _ => match read_nodes t 1 with                               (* rv = 1 from inet_pton *)
                     | inl (ids, rv) => inl (id :: ids, rv)
                     | inr rv => inr rv
                     end
              end
          end
      end
  end.

(** the table global_clusters *)
Definition registry := list (list N * registered).
Fixpoint retrieve (g : registry) (name : list N) : option registered :=
  match g with [] => None | (n, c) :: t => if same_id n name then Some c else retrieve t name end.
Fixpoint replace (g : registry) (name : list N) (c : registered) : registry :=
  match g with [] => [] | (n, x) :: t => if same_id n name then (n, c) :: t else (n, x) :: replace t name c end.

(** a bounded integer attribute with a default, mtev_cluster.c:669-698 *)
Definition int_attr (a : attr) (dflt : option Z) : option Z :=
  match a with
  | Missing | Empty => dflt
  | Text v junk => if junk then None else Some (to_int v)
  end.
(** the checks of mtev_cluster.c:646-709, giving the cluster without its nodes *)
Definition read_head (c : conf) : option (list N * registered) :=
  match c_name c with
  | None => None
  | Some name =>
      if negb (c_key c) then None else
      match c_seq c with
      | Missing | Empty => None
      | Text s junk =>
          if junk then None else
          match int_attr (c_port_ c) None with
          | None => None
          | Some port =>
              if (port <=? 0)%Z || (port >? 65535)%Z then None else
              match int_attr (c_period c) (Some 200%Z) with
              | None => None
              | Some period =>
                  if (period <? 0)%Z || (period >? 5000)%Z then None else
                  match int_attr (c_timeout c) (Some 5000%Z) with
                  | None => None
                  | Some tmo =>
                      if (tmo <? period)%Z then None else
                      match int_attr (c_maturity c) (Some tmo) with
                      | None => None
                      | Some mat =>
                          if (mat <? 0)%Z && match c_maturity c with Text _ _ => true | _ => false end then None else
                          Some (name, {| r_seq := s; r_port := port; r_period := period; r_timeout := tmo; r_maturity := mat; r_ids := [] |})
                      end
                  end
              end
          end
      end
  end.
(** mtev_cluster_update_internal, mtev_cluster.c:636-845: the return value and the new table.
    [nsort] is qsort with mtev_cluster_node_compare, [writable] whether mtev_cluster_write_config
    finds the clusters section (:556-561) *)
Definition update (nsort : list (list N) -> list (list N)) (writable : bool) (c : conf) (g : registry) : Z * registry :=
  match read_head c with
  | None => ((-1)%Z, g)
  | Some (name, x) =>
      match read_nodes (c_nodes c) (-1) with
      | inr rv => (rv, g)
      | inl (ids, _) =>
          let x := {| r_seq := r_seq x; r_port := r_port x; r_period := r_period x; r_timeout := r_timeout x;
                      r_maturity := r_maturity x; r_ids := nsort ids |} in
          match retrieve g name with
          | Some o => if (r_seq x <=? r_seq o)%Z then (2%Z, g)               (* :795-800 *)
                      else if writable then (1%Z, replace g name x) else ((-1)%Z, g)
          | None => if writable then (0%Z, g ++ [(name, x)]) else ((-1)%Z, g)
          end
      end
  end.
