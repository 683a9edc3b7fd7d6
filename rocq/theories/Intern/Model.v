(** Model of interning and releasing in src/utils/mtev_intern.c (pools with extents): any number of calls of
    mtev_intern_pool_ex, mtev_intern_copy and mtev_intern_release_pool proceed by atomic steps in any order.
    Memory comes from an allocator that never hands out memory in use (modelled in Ipool); released memory may be handed
    out again at once, which is earlier than the staging of mtev_intern.c:267-286 allows.  The reader/writer lock
    plock is its contract: R excludes W, S excludes S and W, W excludes everything. *)
From Coq Require Import Arith NArith List Bool.
Import ListNotations.

(** struct mtev_intern_internal, mtev_intern.c:160-166: [bytes] are the first [len] bytes of v *)
Record obj := Obj { bytes : list N; nt : bool; refcnt : N }.
(** lookfor->len = len, a 23-bit field (mtev_intern.c:164, 837): hash and comparison see that many bytes *)
Definition trunc (b : list N) : list N := firstn (N.to_nat (N.of_nat (length b) mod 2 ^ 23)) b.

(** where a call is.  [b], [n]: its arguments (bytes and terminator flag); [t]: the trash pile
    (mtev_intern.c:822-825). *)
Inductive call :=
| ITakeR (b : list N) (n : bool) (t : list nat)             (* :841, 858, 914 about to take R *)
| ILook (b : list N) (n : bool) (t : list nat)              (* :845 with R *)
| IGot (b : list N) (n : bool) (t : list nat) (p : nat)     (* :850 with R, found p *)
| IAlloc (b : list N) (n : bool) (t : list nat)             (* :868 no lock *)
| ITakeW (b : list N) (n : bool) (t : list nat) (q : nat)   (* :881 about to take W, new item q *)
| IPut (b : list N) (n : bool) (t : list nat) (q : nat)     (* :883 with W *)
| IGet2 (b : list N) (n : bool) (t : list nat)              (* :900 with S *)
| IRef2 (b : list N) (n : bool) (t : list nat) (p : nat)    (* :907 with S, found p *)
| IDone (b : list N) (n : bool) (t : list nat) (p : nat)    (* :926-938 has a reference to p, empties the trash *)
| RDec (p : nat)                                            (* :666 *)
| RTakeS (p : nat)                                          (* :688 *)
| RRem (p : nat)                                            (* :689-691 with S *)
| RTakeW (p : nat)                                          (* :707 *)
| RStage (p : nat).                                         (* :709-712 *)
(** the locks a call holds at each point *)
Definition has_r (c : call) : bool := match c with ILook _ _ _ | IGot _ _ _ _ => true | _ => false end.
Definition has_s (c : call) : bool := match c with IGet2 _ _ _ | IRef2 _ _ _ _ | RRem _ => true | _ => false end.
Definition has_w (c : call) : bool := match c with IPut _ _ _ _ => true | _ => false end.

(** the pool: memory of items, the hash (item addresses), the number of items; the references users hold;
    the calls in progress; and the handles returned so far with what was asked for *)
Record sys := Sys {
  mem : nat -> option obj;
  tbl : list nat;
  item_count : N;
  held : nat -> nat;
  calls : list call;
  ret : list (list N * bool * nat)
}.
Definition init : sys := Sys (fun _ => None) [] 0 (fun _ => 0) [] [].

(** equality of byte strings *)
Fixpoint eqb_bytes (a b : list N) : bool :=
  match a, b with
  | [], [] => true
  | x :: a, y :: b => N.eqb x y && eqb_bytes a b
  | _, _ => false
  end.
(** mi_compare, mtev_intern.c:504-510: length and bytes; the terminator flag is not looked at *)
Definition mi_compare (s : sys) (k : list N) (p : nat) : bool :=
  match mem s p with Some o => eqb_bytes (bytes o) k | None => false end.
(** ck_hs_get with mi_hash/mi_compare *)
Definition lookup (s : sys) (k : list N) : option nat := find (mi_compare s k) (tbl s).

Definition upd {A} (f : nat -> A) (p : nat) (v : A) : nat -> A := fun x => if Nat.eqb x p then v else f x.
Fixpoint set_nth {A} (i : nat) (v : A) (l : list A) : list A :=
  match l, i with
  | [], _ => []
  | _ :: r, O => v :: r
  | x :: r, S i => x :: set_nth i v r
  end.
Fixpoint remove_nth {A} (i : nat) (l : list A) : list A :=
  match l, i with
  | [], _ => []
  | _ :: r, O => r
  | x :: r, S i => x :: remove_nth i r
  end.

Definition with_mem (s : sys) (m : nat -> option obj) : sys := Sys m (tbl s) (item_count s) (held s) (calls s) (ret s).
Definition with_calls (s : sys) (c : list call) : sys := Sys (mem s) (tbl s) (item_count s) (held s) c (ret s).
Definition with_held (s : sys) (h : nat -> nat) : sys := Sys (mem s) (tbl s) (item_count s) h (calls s) (ret s).
Definition with_tbl (s : sys) (t : list nat) (n : N) : sys := Sys (mem s) t n (held s) (calls s) (ret s).
Definition with_ret (s : sys) (r : list (list N * bool * nat)) : sys := Sys (mem s) (tbl s) (item_count s) (held s) (calls s) r.

(** fetch-and-add on a uint32_t *)
Definition plus1 (x : N) : N := ((x + 1) mod 2 ^ 32)%N.
Definition minus1 (x : N) : N := ((x + (2 ^ 32 - 1)) mod 2 ^ 32)%N.
Definition set_ref (s : sys) (p : nat) (o : obj) (r : N) : sys :=
  with_mem s (upd (mem s) p (Some (Obj (bytes o) (nt o) r))).

(** what happens next: an intern or release call begins, a reference is copied, or call [i] does its next step
    (with [q] the memory the allocator gives, should it allocate) *)
Inductive choice :=
| Begin (b : list N) (n : bool)
| Release (p : nat)
| Copy (p : nat)
| Go (i q : nat).

(** [Abort]: a failed assertion or an access to memory that was given back; [Blocked]: not possible now *)
Inductive res := Next (s : sys) | Blocked | Abort.

(** mtev_intern.c:749-751, 851-853, 908-910: load and compare-and-swap until it is done or 0 is seen *)
Definition try_ref (s : sys) (i : nat) (b : list N) (n : bool) (t : list nat) (p : nat) : res :=
  match mem s p with
  | None => Abort
  | Some o => if N.eqb (refcnt o) 0 then Next (with_calls s (set_nth i (ITakeR b n t) (calls s)))
              else let s1 := set_ref s p o (plus1 (refcnt o)) in
                   Next (with_calls s1 (set_nth i (IDone b n t p) (calls s)))
  end.

(** one step of the call at [c] (number [i]); mtev_intern.c:805-939 and 659-716 *)
Definition go (s : sys) (i : nat) (c : call) (q : nat) : res :=
  let to c := Next (with_calls s (set_nth i c (calls s))) in
  let no f := forallb (fun c => negb (f c)) (calls s) in
  match c with
  | ITakeR b n t => if no has_w then to (ILook b n t) else Blocked
  | ILook b n t =>
      match lookup s (trunc b) with
      | Some p => to (IGot b n t p)
      | None => to (IAlloc b n t)
      end
  | IGot b n t p => try_ref s i b n t p
  | IAlloc b n t =>                                                             (* :868-879 *)
      match mem s q with
      | Some _ => Blocked
      | None => let s1 := with_mem s (upd (mem s) q (Some (Obj (trunc b) n 1))) in
                Next (with_calls s1 (set_nth i (ITakeW b n t q) (calls s)))
      end
  | ITakeW b n t q => if no has_r && no has_s && no has_w then to (IPut b n t q) else Blocked
  | IPut b n t q =>
      match mem s q with
      | None => Abort
      | Some o =>
          match lookup s (bytes o) with
          | Some _ => to (IGet2 b n (q :: t))                                   (* :883-896 *)
          | None => let s1 := with_tbl s (q :: tbl s) (item_count s + 1) in     (* :919-922 *)
                    Next (with_calls s1 (set_nth i (IDone b n t q) (calls s)))
          end
      end
  | IGet2 b n t =>
      match lookup s (trunc b) with
      | None => Abort                                                           (* :903 *)
      | Some p => if match t with x :: _ => Nat.eqb x p | [] => false end then Abort  (* :901 *)
                  else to (IRef2 b n t p)
      end
  | IRef2 b n t p => try_ref s i b n t p
  | IDone b n (x :: t) p =>                                                     (* :931-937, 674-683 *)
      match mem s x with
      | None => Abort
      | Some o =>
          if N.eqb (refcnt o) 0 then Abort
          else let s1 := if N.eqb (refcnt o) 1 then with_mem s (upd (mem s) x None)
                         else set_ref s x o (minus1 (refcnt o)) in
               Next (with_calls s1 (set_nth i (IDone b n t p) (calls s)))
      end
  | IDone b n [] p =>                                                           (* :926, 938 *)
      let s1 := with_held s (upd (held s) p (held s p + 1)) in
      Next (with_ret (with_calls s1 (remove_nth i (calls s))) ((b, n, p) :: ret s))
  | RDec p =>                                                                   (* :666-672 *)
      match mem s p with
      | None => Abort
      | Some o =>
          if N.eqb (refcnt o) 0 then Abort
          else let s1 := set_ref s p o (minus1 (refcnt o)) in
               Next (with_calls s1 (if N.eqb (refcnt o) 1 then set_nth i (RTakeS p) (calls s)
                                    else remove_nth i (calls s)))
      end
  | RTakeS p => if no has_s && no has_w then to (RRem p) else Blocked
  | RRem p =>                                                                   (* :689-693 *)
      match mem s p with
      | None => Abort
      | Some o =>
          if negb (N.eqb (refcnt o) 0) then Abort
          else match lookup s (bytes o) with
               | None => Abort
               | Some r => let s1 := with_tbl s (filter (fun x => negb (Nat.eqb x r)) (tbl s)) (item_count s - 1) in
                           Next (with_calls s1 (set_nth i (RTakeW p) (calls s)))
               end
      end
  | RTakeW p => if no has_r && no has_s && no has_w then to (RStage p) else Blocked
  | RStage p =>                                                                 (* :709-712 *)
      Next (with_calls (with_mem s (upd (mem s) p None)) (remove_nth i (calls s)))
  end.

(** one step of the system.  Users copy and release only references they hold. *)
Definition step (s : sys) (ch : choice) : res :=
  match ch with
  | Begin b n => Next (with_calls s (calls s ++ [ITakeR b n []]))
  | Release p =>                                                                (* :979-984 *)
      if Nat.eqb (held s p) 0 then Blocked
      else Next (with_calls (with_held s (upd (held s) p (held s p - 1))) (calls s ++ [RDec p]))
  | Copy p =>                                                                   (* :963-977 *)
      if Nat.eqb (held s p) 0 then Blocked
      else match mem s p with
           | None => Abort
           | Some o => if N.eqb (refcnt o) 0 then Abort
                       else Next (with_held (set_ref s p o (plus1 (refcnt o))) (upd (held s) p (held s p + 1)))
           end
  | Go i q => match nth_error (calls s) i with Some c => go s i c q | None => Blocked end
  end.

(** a schedule from the start; impossible choices are skipped *)
Fixpoint run (s : sys) (cs : list choice) : res :=
  match cs with
  | [] => Next s
  | c :: r => match step s c with Next s' => run s' r | Blocked => run s r | Abort => Abort end
  end.

(** ** The calls users make *)
(** strlen *)
Fixpoint strlen (m : list N) : nat :=
  match m with [] => 0 | x :: r => if N.eqb x 0 then 0 else S (strlen r) end.
(** mtev_intern_pool_str and mtev_intern_pool, mtev_intern.c:941-950, 809-812, 837: [m] is the memory from buff
    on; len+nt bytes of it are taken, so a string's terminator is whatever byte follows it *)
Definition taken (m : list N) (len : nat) (n : bool) : list N :=
  let len := if Nat.eqb len 0 then strlen m else len in
  firstn (len + if n then 1 else 0) m.
Definition intern_str (m : list N) (len : nat) : choice := Begin (taken m len true) true.
Definition intern_blob (m : list N) (len : nat) : choice := Begin (taken m len false) false.
(** mtev_intern_get_str, mtev_intern.c:1000-1012: pointer and len - nt *)
Definition get_str (s : sys) (p : nat) : option (list N) :=
  match mem s p with
  | Some o => Some (firstn (length (bytes o) - if nt o then 1 else 0) (bytes o))
  | None => None
  end.
(** mtev_intern_get_refcnt, mtev_intern.c:993-998 *)
Definition get_refcnt (s : sys) (p : nat) : option N :=
  match mem s p with Some o => Some (refcnt o) | None => None end.
