(** What a user of a dynamic buffer sees: the text appended since the last reset. *)
From Coq Require Import Arith NArith ZArith List Bool.
From Verif.Dynbuf Require Import Model.
Import ListNotations.

(** [txt]: the bytes appended since the last reset; [room]: how many more the caller may store
    through the write pointer; [peak]: the largest total ever asked for; [nul]: the last call was a
    printf, so the text is NUL terminated. *)
Record st := { txt : list N; room : nat; peak : nat; nul : bool }.

Definition start : st := {| txt := []; room := static_size; peak := 0; nul := false |}.

(** bytes a call needs in the buffer, the terminator of a printf included *)
Definition request (o : op) : nat :=
  match o with
  | Add d | Fill d => length d
  | Ensure n => n
  | Vprintf (Some t) | Printf (Some t) | MaybeVprintf (Some t) => length t + 1
  | _ => 0
  end.

Definition demand (s : st) (o : op) : nat := Nat.max (peak s) (length (txt s) + request o).

Definition append (s : st) (o : op) (t : list N) (n : bool) : st :=
  {| txt := txt s ++ t; room := room s - length t; peak := demand s o; nul := n |}.

Inductive spec_step (s : st) : op -> st -> Prop :=
  | s_add d : spec_step s (Add d) (append s (Add d) d false)
  | s_fill d : spec_step s (Fill d) (append s (Fill d) d false)
  | s_vprintf t : spec_step s (Vprintf (Some t)) (append s (Vprintf (Some t)) t true)
  | s_printf t : spec_step s (Printf (Some t)) (append s (Printf (Some t)) t true)
  | s_maybe_yes t : spec_step s (MaybeVprintf (Some t)) (append s (MaybeVprintf (Some t)) t true)
  | s_maybe_no t : spec_step s (MaybeVprintf (Some t)) (append s (MaybeVprintf (Some t)) [] false)
  | s_ensure n : spec_step s (Ensure n)
      {| txt := txt s; room := Nat.max (room s) n; peak := demand s (Ensure n); nul := false |}
  | s_reset : spec_step s Reset
      {| txt := []; room := room s + length (txt s); peak := peak s; nul := false |}
  | s_destroy : spec_step s Destroy {| txt := []; room := static_size; peak := peak s; nul := false |}.

(** What is asked of the caller: a store through the write pointer stays in the room obtained,
    formatting succeeds, and sizes are sane: below 2^62 in general, below 2^30 when the printf that
    measures the free space with an int is used. *)
Definition legal (s : st) (o : op) : Prop :=
  (N.of_nat (demand s o) < 2 ^ 62)%N /\
  match o with
  | Fill d => length d <= room s
  | Vprintf t => exists x, t = Some x /\ (N.of_nat (length x) < 2 ^ 31 - 1)%N
  | Printf t | MaybeVprintf t => (exists x, t = Some x) /\ (N.of_nat (demand s o) < 2 ^ 30)%N
  | _ => True
  end.

Inductive spec_run : st -> list op -> st -> Prop :=
  | sr_nil s : spec_run s [] s
  | sr_cons s o s1 r s2 : spec_step s o s1 -> spec_run s1 r s2 -> spec_run s (o :: r) s2.

Inductive legal_run : st -> list op -> Prop :=
  | lr_nil s : legal_run s []
  | lr_cons s o r : legal s o -> (forall s', spec_step s o s' -> legal_run s' r) -> legal_run s (o :: r).

(** the used region as a user reads it: mtev_dyn_buffer_used bytes at mtev_dyn_buffer_data *)
Definition region (b : buf) : list byte := firstn (used b) (mem b).
