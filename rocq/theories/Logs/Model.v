(** Model of the graph of log streams and of the way of a line through it
    (src/utils/mtev_log.c). *)
From Coq Require Import Arith NArith List Bool.
Import ListNotations.

Definition bytes := list N.
(** a line: what is known before its text is formatted, and the text *)
Record line := mkline { meta : N; text : bytes }.
(** mtev_log.h:167-173 the flags of a stream *)
Record flags := mkflags { enabled : bool; debug : bool; stamps : bool; facility : bool; split : bool }.
(** mtev_log.c:1930-1964 a filter: its mtev_logic expression as a function, whether it
    looks at the message *)
Record filter := mkfilter { needs_message : bool; run : line -> bool }.
(** mtev_log.c, struct _mtev_log_stream_outlet_list *)
Record outlet := mkoutlet { target : nat; cond : option filter }.
(** mtev_log.c:182-199 struct _mtev_log_stream; flags_below is its bit for enabled;
    [writer]: ops is set; [plain]: the format *)
Record stream := mkstream {
  name : bytes; flg : flags; below : bool; mat : bool;
  writer : bool; type : option bytes; plain : bool; outs : list outlet }.
(** the streams of mtev_loggers, a pointer is an index; the keys of mtev_logops *)
Record state := mkstate { streams : list stream; types : list bytes }.

(** mtev_log.c:78-79, 1621-1623 *)
Definition only_enabled : flags := mkflags true false false false false.
Definition no_flags : flags := mkflags false false false false false.
Definition BOOT_STDERR_FLAGS : flags := mkflags true false true false true.
Definition BOOT_DEBUG_FLAGS : flags := mkflags false false true false false.
(** a pointer to nothing; never used *)
Definition dead : stream := mkstream [] no_flags false false false None true [].
Definition get (ss : list stream) (i : nat) : stream := nth i ss dead.
Definition upd (ss : list stream) (i : nat) (s : stream) : list stream := firstn i ss ++ s :: skipn (S i) ss.
Definition eqb_bytes (a b : bytes) : bool := if list_eq_dec N.eq_dec a b then true else false.
(** field updates *)
Definition with_below (b m : bool) (s : stream) := mkstream (name s) (flg s) b m (writer s) (type s) (plain s) (outs s).
Definition with_outs (l : list outlet) (s : stream) := mkstream (name s) (flg s) (below s) (mat s) (writer s) (type s) (plain s) l.
Definition with_flags (f : flags) (s : stream) := mkstream (name s) f (below s) (mat s) (writer s) (type s) (plain s) (outs s).
Definition with_writer (s : stream) := mkstream (name s) (flg s) (below s) (mat s) true (type s) (plain s) (outs s).
Definition with_plain (b : bool) (s : stream) := mkstream (name s) (flg s) (below s) (mat s) (writer s) (type s) b (outs s).

(** None: deeper than the stack, or a failed mtevAssert *)
Definition bind {A B} (o : option A) (f : A -> option B) : option B := match o with Some a => f a | None => None end.

(** mtev_log.c:483-505 has_material_output *)
Fixpoint any (f : nat -> option bool) (l : list outlet) : option bool :=
  match l with
  | [] => Some false
  | o :: r => bind (f (target o)) (fun b => if b then Some true else any f r)
  end.
Fixpoint has_material_output (d : nat) (ss : list stream) (i : nat) : option bool :=
  match d with
  | O => None
  | S d =>
      if negb (enabled (flg (get ss i))) then Some false
      else if writer (get ss i) then Some true
      else any (has_material_output d ss) (outs (get ss i))
  end.
(** mtev_log.c:506-531 materialize_deps *)
Fixpoint each (f : list stream -> nat -> option (list stream)) (ss : list stream) (l : list nat) : option (list stream) :=
  match l with
  | [] => Some ss
  | i :: r => bind (f ss i) (fun ss => each f ss r)
  end.
Fixpoint materialize_deps (d : nat) (ss : list stream) (i : nat) : option (list stream) :=
  match d with
  | O => None
  | S d =>
      if mat (get ss i) then Some ss
      else bind (each (materialize_deps d) ss (map target (outs (get ss i)))) (fun ss =>
           bind (has_material_output d ss i) (fun b => Some (upd ss i (with_below b true (get ss i)))))
  end.
(** mtev_log.c:533-567 *)
Definition dematerialize (ss : list stream) : list stream := map (fun s => with_below (below s) false s) ss.
Definition rematerialize (d : nat) (ss : list stream) : option (list stream) :=
  each (materialize_deps d) (dematerialize ss) (seq 0 (length ss)).

(** mtev_hash_retrieve from mtev_loggers *)
Fixpoint lookup_from (k : nat) (ss : list stream) (n : bytes) : option nat :=
  match ss with
  | [] => None
  | s :: r => if eqb_bytes (name s) n then Some k else lookup_from (S k) r n
  end.
Definition lookup (ss : list stream) (n : bytes) : option nat := lookup_from 0 ss n.

(** mtev_log.c:1776-1794, 1930-1964 mtev_log_stream_add_stream(_filtered) *)
Definition add_stream (d : nat) (ss : list stream) (i j : nat) (c : option filter) : option (list stream) :=
  match List.find (fun o => eqb_bytes (name (get ss (target o))) (name (get ss j))) (outs (get ss i)) with
  | Some o => if target o =? j then Some ss else None
  | None => rematerialize d (upd ss i (with_outs (mkoutlet j c :: outs (get ss i)) (get ss i)))
  end.
(** mtev_log.c:1980-2013 mtev_log_stream_remove_stream *)
Fixpoint without (ss : list stream) (n : bytes) (l : list outlet) : list outlet :=
  match l with
  | [] => []
  | o :: r => if eqb_bytes (name (get ss (target o))) n then r else o :: without ss n r
  end.
Definition remove_stream (d : nat) (ss : list stream) (i : nat) (n : bytes) : option (list stream) :=
  match List.find (fun o => eqb_bytes (name (get ss (target o))) n) (outs (get ss i)) with
  | None => Some ss
  | Some _ => rematerialize d (upd ss i (with_outs (without ss n (outs (get ss i))) (get ss i)))
  end.
(** mtev_log.c:1966-1978 mtev_log_stream_removeall_streams *)
Definition removeall (d : nat) (ss : list stream) (i : nat) : option (list stream) :=
  match outs (get ss i) with
  | [] => Some ss
  | _ => rematerialize d (upd ss i (with_outs [] (get ss i)))
  end.
(** mtev_log.c:1484-1490 mtev_log_stream_set_flags *)
Definition eqb_flags (a b : flags) : bool :=
  Bool.eqb (enabled a) (enabled b) && Bool.eqb (debug a) (debug b) && Bool.eqb (stamps a) (stamps b)
  && Bool.eqb (facility a) (facility b) && Bool.eqb (split a) (split b).
Definition set_flags (d : nat) (ss : list stream) (i : nat) (f : flags) : option (list stream) :=
  let ss' := upd ss i (with_flags f (get ss i)) in
  if eqb_flags (flg (get ss i)) f then Some ss' else rematerialize d ss'.

(** the names stderr, debug, file *)
Definition n_stderr : bytes := [115; 116; 100; 101; 114; 114]%N.
Definition n_debug : bytes := [100; 101; 98; 117; 103]%N.
Definition n_file : bytes := [102; 105; 108; 101]%N.
(** strrchr of a slash: what is before the last one *)
Fixpoint parent (n : bytes) : option bytes :=
  match n with
  | [] => None
  | x :: r => match parent r with
              | Some p => Some (x :: p)
              | None => if (x =? 47)%N then Some [] else None
              end
  end.
(** mtev_log.c:1613-1623 a new stream *)
Definition fresh (n : bytes) (ty : option bytes) (w : bool) : stream :=
  mkstream n (mkflags true false false false (match ty with Some t => eqb_bytes t n_file | None => false end))
    false false w ty true [].
(** mtev_log.c:1728-1761 mtev_log_stream_find; [k] bounds the number of slashes *)
Fixpoint find (k d : nat) (ss : list stream) (n : bytes) : option (list stream * nat) :=
  match lookup ss n with
  | Some i => Some (ss, i)
  | None =>
      let i := length ss in
      bind (rematerialize d (ss ++ [fresh n None false])) (fun ss =>
      let ss := if eqb_bytes n n_debug then upd ss i (with_flags BOOT_DEBUG_FLAGS (get ss i))
                else if eqb_bytes n n_stderr then upd ss i (with_flags BOOT_STDERR_FLAGS (get ss i)) else ss in
      bind (match parent n with
            | None => Some ss
            | Some p => match k with
                        | O => None
                        | S k => bind (find k d ss p) (fun r => add_stream d (fst r) i (snd r) None)
                        end
            end) (fun ss => bind (rematerialize d ss) (fun ss => Some (ss, i))))
  end.
Definition find_stream (d : nat) (ss : list stream) (n : bytes) : option (list stream * nat) := find (length n) d ss n.
Definition known (ts : list bytes) (t : bytes) : bool := existsb (eqb_bytes t) ts.
(** mtev_log.c:1608-1679, 1690-1706 mtev_log_stream_new: the stream found, then made new;
    [opens] is the answer of openop *)
Definition new_stream (d : nat) (st : state) (n : bytes) (ty : option bytes) (opens : bool) : option (list stream) :=
  bind (find_stream d (streams st) n) (fun r =>
  if eqb_bytes n n_stderr then Some (fst r)
  else
  let w := match ty with Some t => known (types st) t | None => false end in
  if w && negb opens then Some (fst r)
  else rematerialize d (upd (fst r) (snd r) (fresh n ty w))).
(** mtev_log.c:1536-1573 mtev_log_stream_new_on_fd *)
Definition new_on_fd (ss : list stream) (n : bytes) : list stream :=
  match lookup ss n with
  | Some _ => ss
  | None => ss ++ [mkstream n only_enabled false false true None true []]
  end.
(** mtev_log.c:1579-1606 mtev_log_final_resolve; openop succeeds *)
Fixpoint final_resolve (ts : list bytes) (ss : list stream) : list stream :=
  match ss with
  | [] => []
  | s :: r =>
      match type s with
      | None => s :: final_resolve ts r
      | Some t => if writer s then s :: final_resolve ts r
                  else if known ts t then with_writer s :: final_resolve ts r
                  else s :: r
      end
  end.

(** ** The calls of the API *)
Inductive op :=
| Find (n : bytes)
| New (n : bytes) (ty : option bytes) (opens : bool)
| New_on_fd (n : bytes)
| Add (i j : nat)
| Add_filtered (i j : nat) (f : filter)
| Remove (i : nat) (n : bytes)
| Remove_all (i : nat)
| Set_flags (i : nat) (f : flags)
| Set_plain (i : nat) (b : bool)
| Register (t : bytes)
| Resolve.
Definition there (ss : list stream) (i : nat) : bool := i <? length ss.
(** a call; None if a pointer does not point to a stream or the call does not return *)
Definition step (d : nat) (st : state) (o : op) : option state :=
  let ss := streams st in
  let ret r := bind r (fun ss => Some (mkstate ss (types st))) in
  match o with
  | Find n => ret (bind (find_stream d ss n) (fun r => Some (fst r)))
  | New n ty opens => ret (new_stream d st n ty opens)
  | New_on_fd n => ret (Some (new_on_fd ss n))
  | Add i j => if there ss i && there ss j then ret (add_stream d ss i j None) else None
  | Add_filtered i j f => if there ss i && there ss j then ret (add_stream d ss i j (Some f)) else None
  | Remove i n => if there ss i then ret (remove_stream d ss i n) else None
  | Remove_all i => if there ss i then ret (removeall d ss i) else None
  | Set_flags i f => if there ss i then ret (set_flags d ss i f) else None
  | Set_plain i b => if there ss i then ret (Some (if writer (get ss i) then upd ss i (with_plain b (get ss i)) else ss)) else None
  | Register t => Some (mkstate ss (t :: types st))
  | Resolve => ret (Some (final_resolve (types st) ss))
  end.
Fixpoint steps (d : nat) (st : state) (l : list op) : option state :=
  match l with [] => Some st | o :: r => bind (step d st o) (fun st => steps d st r) end.

(** ** Logging *)
(** mtev_log.c:2224-2250 the answers of filters already asked, by list node *)
Definition tracker := list (nat * nat * bool).
Fixpoint seen (t : tracker) (i j : nat) : option bool :=
  match t with
  | [] => None
  | (i', j', b) :: r => if (i' =? i) && (j' =? j) then Some b else seen r i j
  end.
Definition track (t : tracker) (i j : nat) (b : bool) : tracker := if 8 <=? length t then t else t ++ [(i, j, b)].

(** mtev_log.c:2597-2637 mtev_log_construction_needed *)
Inductive need := No | Yes | Message.
Section Needed.
Context (l : line) (has_message : bool) (i : nat) (rec : nat -> tracker -> option (need * tracker)).
Fixpoint needed_outs (os : list outlet) (t : tracker) : option (need * tracker) :=
  match os with
  | [] => Some (No, t)
  | o :: r => bind (rec (target o) t) (fun nt =>
      match nt with
      | (No, t) => needed_outs r t
      | (_, t) =>
          match cond o with
          | None => Some (Yes, t)
          | Some f =>
              match seen t i (target o) with
              | Some true => Some (Yes, t)
              | Some false => needed_outs r t
              | None =>
                  if negb has_message && needs_message f then Some (Message, t)
                  else let b := run f (if has_message then l else mkline (meta l) []) in
                       if b then Some (Yes, track t i (target o) b) else needed_outs r (track t i (target o) b)
              end
          end
      end)
  end.
End Needed.
Fixpoint needed (d : nat) (ss : list stream) (l : line) (has_message : bool) (i : nat) (t : tracker) : option (need * tracker) :=
  match d with
  | O => None
  | S d =>
      if negb (enabled (flg (get ss i))) then Some (No, t)
      else if writer (get ss i) then Some (Yes, t)
      else needed_outs l has_message i (needed d ss l has_message) (outs (get ss i)) t
  end.

(** what a writer is given: a text with the parts in front of it, or the line as
    flatbuffer or JSON *)
Inductive written := Text (to : nat) (stamp : bool) (from : option bytes) (dbg : bool) (t : bytes) | Whole (to : nat).
(** mtev_log.c:2329-2341 the pieces of a message *)
Fixpoint cut_lines (t : bytes) : list bytes :=
  match t with
  | [] => []
  | x :: r => if (x =? 10)%N then [x] :: cut_lines r
              else match cut_lines r with [] => [[x]] | p :: q => (x :: p) :: q end
  end.
(** mtev_log.c:2379-2389 *)
Definition with_newline (t : bytes) : bytes := if (last t 0 =? 10)%N then t else t ++ [10%N].
Definition pieces (s : bool) (t : bytes) : list bytes :=
  if s then map with_newline (cut_lines t) else match t with [] => [] | _ => [t] end.
(** mtev_log.c:2252-2392 the writes of one stream; [up] is name and flags of bitor *)
Definition writes (s : stream) (i : nat) (up : option (bytes * flags)) (l : line) : list written :=
  if writer s then
    if plain s then
      let n := match up with Some (n, _) => n | None => name s end in
      let f := match up with Some (_, f) => f | None => no_flags end in
      map (Text i (stamps (flg s) || stamps f) (if facility (flg s) || facility f then Some n else None) (debug (flg s) || debug f))
        (pieces (split (flg s)) (text l))
    else [Whole i]
  else [].
(** mtev_log.c:2393-2426 the outlets *)
Section Outs.
Context (ss : list stream) (l : line) (i : nat) (rec : nat -> tracker -> option (list written * tracker)).
Fixpoint log_outs (os : list outlet) (t : tracker) : option (list written * tracker) :=
  match os with
  | [] => Some ([], t)
  | o :: r =>
      let s := get ss (target o) in
      if enabled (flg s) && below s then
        let (b, t) := match cond o with
                      | None => (true, t)
                      | Some f => match seen t i (target o) with
                                  | Some b => (b, t)
                                  | None => let b := run f l in (b, track t i (target o) b)
                                  end
                      end in
        if b then bind (rec (target o) t) (fun wt => bind (log_outs r (snd wt)) (fun wt' => Some (fst wt ++ fst wt', snd wt')))
        else log_outs r t
      else log_outs r t
  end.
End Outs.
(** mtev_log.c:2252-2428 mtev_log_line *)
Fixpoint log_line (d : nat) (ss : list stream) (up : option (bytes * flags)) (i : nat) (l : line) (t : tracker) : option (list written * tracker) :=
  match d with
  | O => None
  | S d =>
      let s := get ss i in
      let n := match up with Some (n, _) => n | None => name s end in
      bind (log_outs ss l i (fun j t => log_line d ss (Some (n, flg s)) j l t) (outs s) t) (fun wt =>
      Some (writes s i up l ++ fst wt, snd wt))
  end.
(** mtev_log.c:2639-2848 mtev_ex_vlog *)
Definition log (d : nat) (ss : list stream) (i : nat) (l : line) : option (list written) :=
  if enabled (flg (get ss i)) && below (get ss i) then
    bind (needed d ss l false i []) (fun nt =>
    match nt with
    | (No, _) => Some []
    | (Yes, t) => bind (log_line d ss None i l t) (fun wt => Some (fst wt))
    | (Message, t) => bind (needed d ss l true i t) (fun nt =>
        match nt with
        | (Yes, t) => bind (log_line d ss None i l t) (fun wt => Some (fst wt))
        | _ => Some []
        end)
    end)
  else Some [].

(** ** mtev_log.c:2078-2113 mtev_log_writev for streams without writevop *)
Definition STACK : nat := 128 * 128.
Fixpoint maxi (i s best : nat) (iov : list bytes) : nat :=
  match iov with
  | [] => best
  | b :: r => maxi (S i) (s + length b) (if s + length b <=? STACK then i else best) r
  end.
(** what writeop reads: None if that is outside of the buffer or was not copied *)
Definition writev (handler : bool) (iov : list bytes) : option bytes :=
  match iov with
  | [b] => Some b
  | _ =>
      let s := length (concat iov) in
      if handler then
        let copied := concat (firstn (maxi 0 0 0 iov + 1) iov) in
        if (STACK <? length copied) || (STACK <? s) || negb (length copied =? s) then None else Some copied
      else Some (concat iov)
  end.
