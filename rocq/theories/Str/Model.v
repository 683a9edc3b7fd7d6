(** Model of the string buffers and bounded copies of src/utils/mtev_str.c.
    An allocation is the list of its bytes; a read or store outside it yields [None]. *)
From Coq Require Import Arith NArith ZArith List Bool.
Import ListNotations.

(** memcpy source: [n] bytes from offset [off] (mtev_str.c:121,169). *)
Definition slice (mem : list N) (off n : nat) : option (list N) :=
  if Nat.leb (off + n) (length mem) then Some (firstn n (skipn off mem)) else None.

(** memcpy destination: store [d] at offset [off] (mtev_str.c:121,129,169,175). *)
Definition blit (mem : list N) (off : nat) (d : list N) : option (list N) :=
  if Nat.leb (off + length d) (length mem)
  then Some (firstn off mem ++ d ++ skipn (off + length d) mem) else None.

(** mtev_str.c:38 GROWTH_FACTOR *)
Definition growth (a : nat) : nat := a + a / 2 + 1.

(** the result is stored in an int (mtev_str.c:118,166): a value of 2^31 or more would turn
    negative and the calloc fail *)
Definition as_int (a : nat) : option nat := if (N.of_nat a <? 2 ^ 31)%N then Some a else None.

(** calloc *)
Definition zeros (n : nat) : list N := repeat 0%N n.

(** ** Prependable buffer, mtev_str.h:43-47: [pstr] is string - buff. *)
Record pbuff := { pmem : list N; pstr : nat; plen : nat }.

(** mtev_str.c:132-140 (and 142-145 with 8). *)
Definition prepend_alloc (initial_len : nat) : pbuff :=
  {| pmem := zeros (initial_len + 1); pstr := initial_len; plen := initial_len |}.

(** mtev_str.c:116-126: grow when the room in front is too small. *)
Definition prepend_grow (b : pbuff) (len : nat) : option pbuff :=
  if Nat.ltb (pstr b) len then
    let stored := plen b - pstr b in
    match as_int (growth (plen b + len)) with
    | None => None
    | Some nl =>
        match slice (pmem b) (pstr b) stored with
        | None => None
        | Some d =>
            match blit (zeros (nl + 1)) (nl - stored) d with
            | None => None
            | Some m1 => match blit m1 nl [0%N] with
                         | None => None
                         | Some m2 => Some {| pmem := m2; pstr := nl - stored; plen := nl |}
                         end
            end
        end
    end
  else Some b.

(** mtev_str.c:113-130 *)
Definition prepend (b : pbuff) (s : list N) : option pbuff :=
  match prepend_grow b (length s) with
  | None => None
  | Some b1 =>
      if Nat.ltb (pstr b1) (length s) then None
      else match blit (pmem b1) (pstr b1 - length s) s with
           | None => None
           | Some m => Some {| pmem := m; pstr := pstr b1 - length s; plen := plen b1 |}
           end
  end.

(** mtev_str.c:155-161 *)
Definition prepend_strlen (b : pbuff) : nat := plen b - pstr b.

(** a sequence of calls of mtev_prepend_str (mtev_str.c:113) *)
Fixpoint prepend_all (b : pbuff) (ops : list (list N)) : option pbuff :=
  match ops with
  | [] => Some b
  | s :: r => match prepend b s with None => None | Some b' => prepend_all b' r end
  end.

(** ** Append buffer, mtev_str.h:49-53: [aend] is end - string. *)
Record abuff := { amem : list N; aend : nat; alen : nat }.

(** mtev_str.c:179-188 (and 190-193 with 8). *)
Definition append_alloc (initial_len : nat) : abuff :=
  {| amem := zeros initial_len; aend := 0; alen := initial_len |}.

(** mtev_str.c:164-173 *)
Definition append_grow (b : abuff) (len : nat) : option abuff :=
  if Nat.ltb (alen b - aend b) len then
    match as_int (growth (alen b + len)) with
    | None => None
    | Some nl =>
        match slice (amem b) 0 (aend b) with
        | None => None
        | Some d => match blit (zeros nl) 0 d with
                    | None => None
                    | Some m => Some {| amem := m; aend := aend b; alen := nl |}
                    end
        end
    end
  else Some b.

(** mtev_str.c:163-177 *)
Definition append (b : abuff) (s : list N) : option abuff :=
  match append_grow b (length s) with
  | None => None
  | Some b1 => match blit (amem b1) (aend b1) s with
               | None => None
               | Some m => Some {| amem := m; aend := aend b1 + length s; alen := alen b1 |}
               end
  end.

(** mtev_str.c:203-209 *)
Definition str_buff_len (b : abuff) : nat := aend b.

(** mtev_str.c:211-218: the allocation handed to the caller. *)
Definition to_string (b : abuff) : list N := amem b.

(** a sequence of calls of mtev_append_str_buff (mtev_str.c:163) *)
Fixpoint append_all (b : abuff) (ops : list (list N)) : option abuff :=
  match ops with
  | [] => Some b
  | s :: r => match append b s with None => None | Some b' => append_all b' r end
  end.

(** ** Bounded copies.  [src] is the content of a C string (no terminator). *)

(** strlen (C library): [None] when no terminator lies in the allocation. *)
Fixpoint strlen (mem : list N) : option nat :=
  match mem with
  | [] => None
  | c :: r => if N.eqb c 0 then Some 0 else match strlen r with None => None | Some n => Some (S n) end
  end.

(** what strncpy(dst, src, n) stores: up to [n] bytes of [src], padded with zeros (C library,
    called at mtev_str.c:224) *)
Definition strncpy_bytes (src : list N) (n : nat) : list N := firstn n src ++ zeros (n - length src).

(** mtev_str.c:221-230; returns the new destination and the result. *)
Definition strlcpy (dst src : list N) (size : nat) : option (list N * nat) :=
  match size with
  | O => match blit dst 0 [0%N] with None => None | Some d => Some (d, length src) end      (* :227 *)
  | S k => match blit dst 0 (strncpy_bytes src k) with
           | None => None
           | Some d1 => match blit d1 k [0%N] with None => None | Some d2 => Some (d2, length src) end
           end
  end.

(** mtev_str.c:237-248; sizes are below 2^31, so the int conversions are exact. *)
Definition strlcat (dst src : list N) (size : nat) : option (list N * nat) :=
  match strlen dst with
  | None => None
  | Some dl =>
      let sz := (Z.of_nat size - Z.of_nat dl - 1)%Z in
      if Z.leb 0 sz then
        match blit dst dl (firstn (Z.to_nat sz) src ++ [0%N]) with        (* strncat, :243 *)
        | None => None
        | Some d1 => match blit d1 (dl + Z.to_nat sz) [0%N] with          (* :244 *)
                     | None => None
                     | Some d2 => Some (d2, dl + length src)
                     end
        end
      else Some (dst, dl + length src)
  end.

(** mtev_str.c:100-101: the scan; [None] is a read past the source's allocation. *)
Fixpoint scan (src : list N) (len : nat) : option nat :=
  match len with
  | O => Some 0
  | S k => match src with
           | [] => None
           | c :: r => if N.eqb c 0 then Some 0 else match scan r k with None => None | Some n => Some (S n) end
           end
  end.

(** mtev_str.c:96-106 *)
Definition strndup (src : list N) (len : nat) : option (list N) :=
  match scan src len with
  | None => None
  | Some slen =>
      match slice src 0 slen with
      | None => None
      | Some d => match blit (zeros (slen + 1)) 0 d with
                  | None => None
                  | Some m => blit m slen [0%N]
                  end
      end
  end.
