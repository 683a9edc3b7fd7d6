(** Model of src/utils/mtev_b32.c.  Characters and bytes are [N].
    A run is described by its return value and the list of bytes it stores
    through the advancing destination pointer (k-th store = offset k). *)
From Coq Require Import Arith NArith List Bool.
Import ListNotations.
Open Scope N_scope.

(** Result of a call: value returned, and the bytes stored at offsets 0,1,...
    (mtev_b32.c:65 [dcp = dest], :109 [eptr = dest]; all stores are [*p++ = ...]). *)
Record run := { ret : nat; stores : list N }.

(** mtev_b32.c:38-41 [__b32] (the trailing NUL is never indexed for values below 32). *)
Definition b32_tbl : list N :=
  [65;66;67;68;69;70;71;72;73;74;75;76;77;78;79;80;81;82;83;84;85;86;87;88;89;90;
   50;51;52;53;54;55;0].

(** indexing [__b32[i]], mtev_b32.c:116-156; an index outside the table is out of
    bounds (value 256 stands for it and cannot be a byte). *)
Definition b32 (i : N) : N := nth (N.to_nat i) b32_tbl 256.

(** mtev_b32.c:43-59 [__ub32]: rows 3 ('2'..'7', '='), 4-5 (upper case), 6-7 (lower case);
    every other entry is 0xfe. *)
Definition ub32 (c : N) : N :=
  if (65 <=? c) && (c <=? 90) then c - 65
  else if (97 <=? c) && (c <=? 122) then c - 97
  else if (50 <=? c) && (c <=? 55) then c - 50 + 26
  else if c =? 61 then 255
  else 254.

(** isspace() in the C locale, used at mtev_b32.c:71. *)
Definition is_space (c : N) : bool := ((9 <=? c) && (c <=? 13)) || (c =? 32).

(** unsigned char truncation of an int expression. *)
Definition u8 (x : N) : N := x mod 256.

(** [in[i] = v], mtev_b32.c:84. *)
Fixpoint upd (l : list N) (i : nat) (v : N) : list N :=
  match l, i with
  | [], _ => []
  | _ :: r, O => v :: r
  | x :: r, S j => x :: upd r j v
  end.

(** mtev_b32.c:86-90: the five output bytes of a full group. *)
Definition group_out (b : list N) : list N :=
  let g i := nth i b 0 in
  [ u8 (N.lor (N.shiftl (g 0%nat) 3) (N.shiftr (g 1%nat) 2));
    u8 (N.lor (N.lor (N.shiftl (N.land (g 1%nat) 3) 6) (N.shiftl (g 2%nat) 1)) (N.shiftr (g 3%nat) 4));
    u8 (N.lor (N.shiftl (N.land (g 3%nat) 15) 4) (N.shiftr (g 4%nat) 1));
    u8 (N.lor (N.lor (N.shiftl (N.land (g 4%nat) 1) 7) (N.shiftl (g 5%nat) 2)) (N.shiftr (g 6%nat) 3));
    u8 (N.lor (N.shiftl (N.land (g 6%nat) 7) 5) (g 7%nat)) ].

(** mtev_b32.c:78-81: number of output bytes selected by a padding character seen
    after [ib] characters of the group. *)
Definition pad_ob (ib : nat) : nat :=
  if (Nat.eqb ib 1 || Nat.eqb ib 2)%bool then 1
  else if (Nat.eqb ib 3 || Nat.eqb ib 4)%bool then 2
  else if (Nat.eqb ib 4 || Nat.eqb ib 5)%bool then 3
  else 4.

(** [in[8] = {0}], mtev_b32.c:66 and the memset at :94. *)
Definition zero8 : list N := [0;0;0;0;0;0;0;0].

(** mtev_b32.c:84-95: store [ch] in the group; when full, emit [ob] bytes and clear.
    Returns (in, ib, emitted). *)
Definition push (b : list N) (ib ob : nat) (ch : N) : list N * nat * list N :=
  let b' := upd b ib ch in
  if Nat.eqb (S ib) 8 then (zero8, O, firstn ob (group_out b'))
  else (b', S ib, []).

(** mtev_b32.c:70-96: the decoding loop.  [src] is the unread input.
    Note that [ob] is never reset after a padded group. *)
Fixpoint decode_loop (src : list N) (b : list N) (ib ob : nat) : list N :=
  match src with
  | [] => []
  | c :: r =>
      if is_space c then decode_loop r b ib ob                      (* :71 *)
      else if c =? 45 then decode_loop r b ib ob                    (* :72 *)
      else
        let ch := ub32 c in                                         (* :73 *)
        if ch =? 254 then []                                        (* :74 *)
        else if ch =? 255 then                                      (* :76 *)
          if Nat.eqb ib 0 then []                                   (* :77 *)
          else
            let '(b', ib', out) := push b 7 (pad_ob ib) ch in       (* :78-95 *)
            out ++ decode_loop r b' ib' (pad_ob ib)
        else
          let '(b', ib', out) := push b ib ob ch in
          out ++ decode_loop r b' ib' ob
  end.

(** mtev_b32.c:100-103. *)
Definition max_decode_len (src_len : nat) : nat := ((src_len / 8) * 5)%nat.

(** mtev_b32.c:61-98. *)
Definition decode (src : list N) (dest_len : nat) : run :=
  if Nat.ltb dest_len (max_decode_len (length src))                 (* :67,:69 *)
  then {| ret := 0; stores := [] |}
  else let o := decode_loop src zero8 0 5 in {| ret := length o; stores := o |}.

(** mtev_b32.c:163-166. *)
Definition encode_len (src_len : nat) : nat := (((src_len + 4) / 5) * 8)%nat.

(** mtev_b32.c:115-159: full groups, then the 0..4 byte tail.
    ([int len = src_len] at :110: lengths of 2^31 and more are not modelled.) *)
Fixpoint encode_loop (l : list N) : list N :=
  match l with
  | b0 :: b1 :: b2 :: b3 :: b4 :: r =>
      b32 (N.shiftr b0 3) ::
      b32 (N.shiftl (N.land b0 7) 2 + N.shiftr b1 6) ::
      b32 (N.shiftr (N.land b1 62) 1) ::
      b32 (N.shiftl (N.land b1 1) 4 + N.shiftr b2 4) ::
      b32 (N.shiftl (N.land b2 15) 1 + N.shiftr b3 7) ::
      b32 (N.shiftr (N.land b3 124) 2) ::
      b32 (N.shiftl (N.land b3 3) 3 + N.shiftr b4 5) ::
      b32 (N.land b4 31) :: encode_loop r
  | [b0] =>
      [b32 (N.shiftr b0 3); b32 (N.shiftl (N.land b0 7) 2); 61; 61; 61; 61; 61; 61]
  | [b0; b1] =>
      [b32 (N.shiftr b0 3); b32 (N.shiftl (N.land b0 7) 2 + N.shiftr b1 6);
       b32 (N.shiftr (N.land b1 62) 1); b32 (N.shiftl (N.land b1 1) 4); 61; 61; 61; 61]
  | [b0; b1; b2] =>
      [b32 (N.shiftr b0 3); b32 (N.shiftl (N.land b0 7) 2 + N.shiftr b1 6);
       b32 (N.shiftr (N.land b1 62) 1); b32 (N.shiftl (N.land b1 1) 4 + N.shiftr b2 4);
       b32 (N.shiftl (N.land b2 15) 1); 61; 61; 61]
  | [b0; b1; b2; b3] =>
      [b32 (N.shiftr b0 3); b32 (N.shiftl (N.land b0 7) 2 + N.shiftr b1 6);
       b32 (N.shiftr (N.land b1 62) 1); b32 (N.shiftl (N.land b1 1) 4 + N.shiftr b2 4);
       b32 (N.shiftl (N.land b2 15) 1 + N.shiftr b3 7);
       b32 (N.shiftr (N.land b3 124) 2); b32 (N.shiftl (N.land b3 3) 3); 61]
  | [] => []
  end.

(** mtev_b32.c:105-161. *)
Definition encode (src : list N) (dest_len : nat) : run :=
  if Nat.ltb dest_len (encode_len (length src))                     (* :111,:113 *)
  then {| ret := 0; stores := [] |}
  else let o := encode_loop src in {| ret := length o; stores := o |}.
