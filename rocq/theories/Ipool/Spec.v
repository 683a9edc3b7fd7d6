(** What the users of an intern pool rely on: every byte of the mapped extents is either free or belongs to
    exactly one live item. *)
From Coq Require Import Arith NArith List Bool.
From Verif.Ipool Require Import Model.
Import ListNotations.
Local Open Scope N_scope.

(** a region: first byte, number of bytes *)
Definition region := (N * N)%type.
(** byte [x] lies in the region *)
Definition inside (x : N) (r : region) : Prop := fst r <= x < fst r + snd r.
(** two regions share no byte *)
Definition apart (r q : region) : Prop := forall x, ~ (inside x r /\ inside x q).
(** a list of regions, no two of which share a byte *)
Fixpoint all_apart (l : list region) : Prop :=
  match l with [] => True | r :: q => Forall (apart r) q /\ all_apart q end.
(** total number of bytes *)
Definition total (l : list region) : N := fold_right (fun r a => snd r + a) 0 l.

(** the memory an item of [len] bytes occupies: an eight-byte header and its bytes, rounded up to four *)
Definition item_region (i : N * N) : region := (fst i, 8 + 4 * ((snd i + 3) / 4)).
Definition frag_region (n : fnode) : region := (base n, size n).

(** the regions of a state *)
Definition live_regions (s : state) : list region := map item_region (live s).
Definition free_regions (s : state) : list region :=
  map frag_region (staged (pl s)) ++ flat_map (fun l => map frag_region (frags l)) (slots (pl s)).
Definition mapped (s : state) : list region := map frag_region (extents (pl s)).

(** ** What mmap promises *)
(** the mappings it grants do not overlap and start at multiples of four *)
Definition grants (o : op) : list N := match o with Alloc _ maps => maps | _ => [] end.
Definition granted (es : N) (ops : list op) : list region :=
  map (fun b => (b, es)) (flat_map grants ops).
Definition good_mmap (es : N) (ops : list op) : Prop :=
  all_apart (granted es ops) /\ Forall (fun r => fst r mod 4 = 0) (granted es ops).
(** the pool stays below 4 GiB *)
Definition below_4g (es : N) (ops : list op) : Prop := total (granted es ops) < 2 ^ 32.

(** extent sizes the levels can represent *)
Definition good_extent (es : N) : Prop := 4 <= es <= 2 ^ 31 /\ es mod 4 = 0.

(** items have at least one byte (mtev_intern.c:943, 954; strings carry a terminator) *)
Definition good_op (o : op) : Prop := match o with Alloc len _ => 0 < len | _ => True end.

(** no fragment begins where another one ends *)
Definition no_two_touch (l : list region) : Prop :=
  forall r q, In r l -> In q l -> fst r + snd r <> fst q.
(** the two lists of regions contain the same bytes *)
Definition same_memory (l m : list region) : Prop :=
  forall x, (exists r, In r l /\ inside x r) <-> (exists r, In r m /\ inside x r).
