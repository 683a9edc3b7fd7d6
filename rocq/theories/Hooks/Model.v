(** Model of the functions MTEV_HOOK_IMPL generates (src/utils/mtev_hooks.h:153-200): a list with a
    shared head pointer, any number of registrations in progress, each step one access to the head,
    in any order (sequential consistency).  Nodes are never freed, so a node is its index in
    [nodes].  A callback (with its closure) is a number; NULL is [None]. *)
From Coq Require Import Arith List Bool.
Import ListNotations.

(** mtev_hook_return_t, mtev_hooks.h:139-143 *)
Inductive ret := CONTINUE | DONE | ABORT.

(** struct mtev_hook_HOOKNAME_list, mtev_hooks.h:154-160 (name and proto do not take part) *)
Record node := { func : option nat; nxt : option nat }.

(** the loop of HOOKNAME_hook_invoke, mtev_hooks.h:176-184: the callbacks run, in order, and the
    result; [None] = out of fuel or a dangling pointer *)
Fixpoint invoke_loop (fuel : nat) (nodes : list node) (res : nat -> ret) (h : option nat) (rv : ret) : option (list nat * ret) :=
  match fuel with
  | O => None
  | S fuel' =>
      match h with
      | None => Some ([], rv)                                                (* :185 *)
      | Some x =>
          match nth_error nodes x with
          | None => None
          | Some nd =>
              match func nd with
              | None => invoke_loop fuel' nodes res (nxt nd) rv              (* :177 *)
              | Some c =>
                  match res c with
                  | ABORT => Some ([c], ABORT)                               (* :181 *)
                  | DONE => match invoke_loop fuel' nodes res (nxt nd) DONE with Some (l, r) => Some (c :: l, r) | None => None end
                  | CONTINUE => match invoke_loop fuel' nodes res (nxt nd) rv with Some (l, r) => Some (c :: l, r) | None => None end
                  end
              end
          end
      end
  end.

(** a registration in progress: its node and the next access (mtev_hooks.h:197-199): read the head
    into nh->next; read the head again as the value the CAS expects; the CAS *)
Inductive pc := ReadNext | ReadExpected | Cas (e : option nat).
(** the hook: all nodes, nh_HOOKNAME_list (mtev_hooks.h:161), registrations in progress *)
Record sys := { nodes : list node; head : option nat; calls : list (nat * pc) }.

(** mtev_hooks.h:170-186: nodes are distinct, so the number of nodes bounds the walk *)
Definition invoke (s : sys) (res : nat -> ret) : option (list nat * ret) :=
  invoke_loop (S (length (nodes s))) (nodes s) res (head s) CONTINUE.
(** HOOKNAME_hook_exists, mtev_hooks.h:165-168 *)
Definition exists_ (s : sys) : bool := match head s with Some _ => true | None => false end.

(** what happens next: a thread calls HOOKNAME_hook_register, or the i-th registration in progress
    makes its next access (mtev_hooks.h:188-200) *)
Inductive choice := Register (f : option nat) | Run (i : nat).

(** list helpers: drop, replace the i-th element (bookkeeping, no counterpart in /repo) *)
Fixpoint remove_nth {A} (i : nat) (l : list A) : list A :=
  match l, i with [], _ => [] | _ :: r, O => r | x :: r, S i' => x :: remove_nth i' r end.
Fixpoint set_nth {A} (i : nat) (y : A) (l : list A) : list A :=
  match l, i with [], _ => [] | _ :: r, O => y :: r | x :: r, S i' => x :: set_nth i' y r end.
(** pointer comparison of ck_pr_cas_ptr, mtev_hooks.h:199 *)
Definition same (a b : option nat) : bool :=
  match a, b with None, None => true | Some x, Some y => x =? y | _, _ => false end.

(** mtev_hooks.h:188-200 *)
Definition step (s : sys) (c : choice) : sys :=
  match c with
  | Register f =>                                                            (* :191-196 *)
      {| nodes := nodes s ++ [{| func := f; nxt := None |}]; head := head s; calls := (length (nodes s), ReadNext) :: calls s |}
  | Run i =>
      match nth_error (calls s) i with
      | None => s
      | Some (x, ReadNext) =>                                                (* :198 *)
          {| nodes := set_nth x {| func := match nth_error (nodes s) x with Some nd => func nd | None => None end; nxt := head s |} (nodes s);
             head := head s; calls := set_nth i (x, ReadExpected) (calls s) |}
      | Some (x, ReadExpected) =>                                            (* :199, second argument *)
          {| nodes := nodes s; head := head s; calls := set_nth i (x, Cas (head s)) (calls s) |}
      | Some (x, Cas e) =>                                                   (* :199 *)
          if same (head s) e
          then {| nodes := nodes s; head := Some x; calls := remove_nth i (calls s) |}
          else {| nodes := nodes s; head := head s; calls := set_nth i (x, ReadNext) (calls s) |}
      end
  end.
(** static initialisation, mtev_hooks.h:161 *)
Definition init : sys := {| nodes := []; head := None; calls := [] |}.
(** a schedule of registrations (mtev_hooks.h:188-200) *)
Definition run (s : sys) (cs : list choice) : sys := fold_left step cs s.
