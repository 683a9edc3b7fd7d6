(** Model of src/utils/mtev_lockfile.c over the record locks of POSIX.  Files and processes are
    numbers; what open(2) and fcntl(2) come to, other than for locks, are parameters; a number of a
    descriptor is not used again. *)
From Coq Require Import List Arith Bool.
Import ListNotations.

(** The kernel's state: who has the write lock of a file, and the open descriptors (number,
    process, file); the next number (open, mtev_lockfile.c:46, 70) *)
Record st := mk { lock : nat -> option nat; fds : list (nat * nat * nat); next : nat }.
(** What is seen from outside: mtev_lockfile_acquire or _acquire_owner answered a descriptor
    (mtev_lockfile.c:60, 97), closed its descriptor and answered -1 (56-59, 79-82, 93-96); a
    descriptor was released (mtev_lockfile.c:112-113); a process ended *)
Inductive ev := Got (p f fd : nat) | Gave_up (p f : nat) | Released (p f fd : nat) | Ended (p : nat).
(** What fcntl does: it is interrupted, it fails, or it does its work (mtev_lockfile.c:55, 78, 92, 112) *)
Inductive fc := Intr | Fails | Works.
(** mtev_lockfile.c:55, 78, 92, 112 the loops over EINTR *)
Fixpoint call (l : list fc) : bool :=
  match l with
  | Intr :: l => call l
  | Fails :: _ => false
  | _ => true
  end.
Definition set (g : nat -> option nat) (f : nat) (v : option nat) : nat -> option nat := fun x => if x =? f then v else g x. (** fcntl, mtev_lockfile.c:55 *)
(** Does another process have it (F_SETLK and F_GETLK of a write lock, mtev_lockfile.c:78, 92) *)
Definition other (s : st) (p f : nat) : option nat :=
  match lock s f with Some q => if q =? p then None else Some q | None => None end.
(** fcntl F_SETLK F_WRLCK over the whole file, mtev_lockfile.c:49-55, 87-92 *)
Definition setlk (l : list fc) (s : st) (p f : nat) : option st :=
  if call l then match other s p f with
                 | Some _ => None
                 | None => Some (mk (set (lock s) f (Some p)) (fds s) (next s))
                 end
  else None.
(** A process loses its lock of a file (fcntl F_UNLCK and close, mtev_lockfile.c:57, 80, 94, 112-113) *)
Definition drop (s : st) (p f : nat) : nat -> option nat :=
  match lock s f with Some q => if q =? p then set (lock s) f None else lock s | None => lock s end.
(** close(2), mtev_lockfile.c:57, 80, 94, 113: a process loses its lock of a file with any descriptor of it *)
Definition close (s : st) (p f fd : nat) : st :=
  mk (drop s p f) (filter (fun x => negb (fst (fst x) =? fd)) (fds s)) (next s).
(** open(2), mtev_lockfile.c:46, 70 *)
Definition opened (s : st) (p f : nat) : st := mk (lock s) ((next s, p, f) :: fds s) (S (next s)).
(** mtev_lockfile.c:40-61 mtev_lockfile_acquire *)
Definition acquire (p f : nat) (o : bool) (l : list fc) (s : st) : st * list ev * option nat :=
  if negb o then (s, [], None)
  else let fd := next s in
       let s := opened s p f in
       match setlk l s p f with
       | None => (close s p f fd, [Gave_up p f], None)
       | Some s => (s, [Got p f fd], Some fd)
       end.
(** mtev_lockfile.c:100-116 mtev_lockfile_release of a descriptor; None is -1 *)
Definition release (fd : nat) (l : list fc) (s : st) : st * list ev * option nat :=
  match find (fun x => fst (fst x) =? fd) (fds s) with
  | None => (s, [], None)
  | Some (_, p, f) =>
      let s' := if call l then mk (drop s p f) (fds s) (next s) else s in
      (close s' p f fd, [Released p f fd], if call l then Some 0 else None)
  end.
(** The end of a process, which closes what it has (close, mtev_lockfile.c:113) *)
Definition end_process (p : nat) (s : st) : st :=
  mk (fun f => match lock s f with Some q => if q =? p then None else Some q | None => None end)
     (filter (fun x => negb (snd (fst x) =? p)) (fds s)) (next s).
(** What processes do that takes no time: mtev_lockfile.c:40-61, 100-116 and the end of a process *)
Inductive op := Acquire (p f : nat) (o : bool) (l : list fc) | Release (fd : nat) (l : list fc) | End (p : nat).
(** mtev_lockfile.c:40-61, 100-116 *)
Definition step (s : st) (x : op) : st * list ev :=
  match x with
  | Acquire p f o l => fst (acquire p f o l s)
  | Release fd l => fst (release fd l s)
  | End p => (end_process p s, [Ended p])
  end.
(** One after another, mtev_lockfile.c:40-61, 100-116 *)
Fixpoint steps (s : st) (l : list op) : st * list ev :=
  match l with
  | [] => (s, [])
  | x :: l => let r := step s x in let q := steps (fst r) l in (fst q, snd r ++ snd q)
  end.
(** mtev_lockfile.c:63-98 mtev_lockfile_acquire_owner; [mid] is what others do between the two
    calls of fcntl; the last part of the answer is *owner (None is -1) *)
Definition acquire_owner (p f : nat) (o : bool) (l1 : list fc) (mid : list op) (l2 : list fc) (s : st) : st * list ev * option nat * option nat :=
  if negb o then (s, [], None, None)
  else let fd := next s in
       let s := opened s p f in
       if negb (call l1) then (close s p f fd, [Gave_up p f], None, None)
       else let owner := other s p f in
            let r := steps s mid in
            match setlk l2 (fst r) p f with
            | None => (close (fst r) p f fd, snd r ++ [Gave_up p f], None, owner)
            | Some s => (s, snd r ++ [Got p f fd], Some fd, owner)
            end.
(** All of it: mtev_lockfile.c:40-116 *)
Inductive act := One (x : op) | Owner (p f : nat) (o : bool) (l1 : list fc) (mid : list op) (l2 : list fc).
Definition do_act (s : st) (a : act) : st * list ev := (** mtev_lockfile.c:40-116 *)
  match a with
  | One x => step s x
  | Owner p f o l1 mid l2 => fst (fst (acquire_owner p f o l1 mid l2 s))
  end.
(** mtev_lockfile.c:40-116 one after another *)
Fixpoint run (s : st) (l : list act) : st * list ev :=
  match l with
  | [] => (s, [])
  | a :: l => let r := do_act s a in let q := run (fst r) l in (fst q, snd r ++ snd q)
  end.
(** Before anything is open (mtev_lockfile.c:46) *)
Definition start : st := mk (fun _ => None) [] 0.
