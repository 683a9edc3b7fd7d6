(** Model of src/utils/mtev_b64.c and of the byte-at-a-time ("tail") code of the
    bundled codec src/aklomp-base64/lib (arch/generic/{enc,dec}_{head,tail}.c, lib.c).
    Simplifications: the wide loops (32/64-bit words, SSE/AVX/NEON) are not modelled, the
    tail code alone handles the whole input; OpenMP build not modelled; lengths do not
    reach 2^63 except for the explicit wrap of [needed - 2]. *)
From Coq Require Import Arith NArith List Bool.
Import ListNotations.
Open Scope N_scope.

(** unsigned char truncation of an int expression (uint8_t stores). *)
Definition u8 (x : N) : N := x mod 256.

(** lib.c:16-20 [base64_table_enc]. *)
Definition table_enc : list N :=
  [65;66;67;68;69;70;71;72;73;74;75;76;77;78;79;80;81;82;83;84;85;86;87;88;89;90;
   97;98;99;100;101;102;103;104;105;106;107;108;109;110;111;112;113;114;115;116;117;118;119;120;121;122;
   48;49;50;51;52;53;54;55;56;57;43;47;0].

(** indexing of [base64_table_enc] (lib.c:84,91; enc_tail.c:4,15,26,27); 256 = out of range. *)
Definition enc64 (i : N) : N := nth (N.to_nat i) table_enc 256.

(** lib.c:28-47 [base64_table_dec]: 254 for '=', 255 for characters outside the alphabet. *)
Definition table_dec (c : N) : N :=
  if c =? 43 then 62
  else if c =? 47 then 63
  else if (48 <=? c) && (c <=? 57) then c - 48 + 52
  else if c =? 61 then 254
  else if (65 <=? c) && (c <=? 90) then c - 65
  else if (97 <=? c) && (c <=? 122) then c - 97 + 26
  else 255.

(** [struct base64_state], include/libbase64.h:22-27, fields used when encoding. *)
Record enc_state := { ebytes : nat; ecarry : N }.

(** base64_stream_encode_init, lib.c:49-60. *)
Definition enc_init : enc_state := {| ebytes := 0; ecarry := 0 |}.

(** enc_tail.c:1-31, one input byte: new state and characters stored. *)
Definition enc_byte (st : enc_state) (c : N) : enc_state * list N :=
  match ebytes st with
  | O => ({| ebytes := 1; ecarry := N.land (u8 (N.shiftl c 4)) 48 |}, [enc64 (N.shiftr c 2)])
  | S O => ({| ebytes := 2; ecarry := N.land (u8 (N.shiftl c 2)) 60 |},
            [enc64 (N.lor (ecarry st) (N.shiftr c 4))])
  | _ => ({| ebytes := 0; ecarry := ecarry st |},
          [enc64 (N.lor (ecarry st) (N.shiftr c 6)); enc64 (N.land c 63)])
  end.

(** base64_stream_encode, lib.c:62-72 with enc_head.c / enc_tail.c. *)
Fixpoint stream_encode (st : enc_state) (src : list N) : enc_state * list N :=
  match src with
  | [] => (st, [])
  | c :: r =>
      let '(st1, o1) := enc_byte st c in
      let '(st2, o2) := stream_encode st1 r in (st2, o1 ++ o2)
  end.

(** base64_stream_encode_final, lib.c:74-97. *)
Definition stream_final (st : enc_state) : list N :=
  match ebytes st with
  | S O => [enc64 (ecarry st); 61; 61]
  | S (S O) => [enc64 (ecarry st); 61]
  | _ => []
  end.

(** mtev_b64.c:134-136. *)
Definition encode_len (n : nat) : nat := (4 * ((n + 2) / 3))%nat.

(** mtev_b64.c:114-116: total length of the iovec. *)
Fixpoint iov_len (iov : list (list N)) : nat :=
  match iov with [] => O | p :: r => (length p + iov_len r)%nat end.

(** mtev_b64.c:124-128: encode the pieces one after the other. *)
Fixpoint encode_pieces (st : enc_state) (iov : list (list N)) : enc_state * list N :=
  match iov with
  | [] => (st, [])
  | p :: r =>
      let '(st1, o1) := stream_encode st p in
      let '(st2, o2) := encode_pieces st1 r in (st2, o1 ++ o2)
  end.

(** mtev_b64.c:106-132; result: characters stored (their number is the value returned). *)
Definition encodev (iov : list (list N)) (dest_len : nat) : list N :=
  if Nat.ltb dest_len (encode_len (iov_len iov)) then []            (* :119 *)
  else let '(st, o) := encode_pieces enc_init iov in o ++ stream_final st.

(** mtev_b64.c:96-104. *)
Definition encode (src : list N) (dest_len : nat) : list N := encodev [src] dest_len.

(** mtev_b64.c:91-94. *)
Definition max_decode_len (n : nat) : nat := (((n + 3) / 4) * 3)%nat.

(** The stream decoder, dec_tail.c:1-90, from [bytes] characters into a group with
    [carry] pending: (return value, whether st.bytes is 0 at the end, bytes stored). *)
Fixpoint fast_loop (src : list N) (bytes : nat) (carry : N) : bool * bool * list N :=
  match src with
  | [] => (true, Nat.eqb bytes 0, [])                               (* :1-4,:16-19,:33-36,:68-71 *)
  | c :: r =>
      let q := table_dec c in
      match bytes with
      | O =>
          if 254 <=? q then (false, true, [])                       (* :5-9 *)
          else fast_loop r 1 (u8 (N.shiftl q 2))                    (* :10-11 *)
      | S O =>
          if 254 <=? q then (false, false, [])                      (* :20-24 *)
          else let '(rt, z, o) := fast_loop r 2 (u8 (N.shiftl q 4)) in
               (rt, z, N.lor carry (N.shiftr q 4) :: o)             (* :25-28 *)
      | S (S O) =>
          if 254 <=? q then
            if q =? 254 then
              match r with
              | [] => (true, false, [])                             (* :50-55, bytes = 3 *)
              | c2 :: r2 =>                                         (* :42-49 *)
                  ((table_dec c2 =? 254) && match r2 with [] => true | _ => false end, true, [])
              end
            else (false, false, [])                                 (* :57-58 *)
          else let '(rt, z, o) := fast_loop r 3 (u8 (N.shiftl q 6)) in
               (rt, z, N.lor carry (N.shiftr q 2) :: o)             (* :60-63 *)
      | _ =>
          if 254 <=? q then                                         (* :72-79 *)
            ((q =? 254) && match r with [] => true | _ => false end, true, [])
          else let '(rt, z, o) := fast_loop r 0 0 in
               (rt, z, N.lor carry q :: o)                          (* :80-83 *)
      end
  end.

(** base64_decode, lib.c:167-196: success flag and bytes stored. *)
Definition fast_decode (src : list N) : bool * list N :=
  let '(rt, z, o) := fast_loop src 0 0 in (rt && z, o).

(** isspace() in the C locale, mtev_b64.c:69. *)
Definition is_space (c : N) : bool := ((9 <=? c) && (c <=? 13)) || (c =? 32).

(** mtev_b64.c:63-70: classification of one character of the slow path. *)
Inductive slow_class := SVal (v : N) | SPad | SSkip | SStop.
Definition classify (c : N) : slow_class :=
  if (65 <=? c) && (c <=? 90) then SVal (c - 65)
  else if (97 <=? c) && (c <=? 122) then SVal (c - 97 + 26)
  else if (48 <=? c) && (c <=? 57) then SVal (c - 48 + 52)
  else if (c =? 43) || (c =? 45) then SVal 62
  else if (c =? 47) || (c =? 95) then SVal 63
  else if c =? 61 then SPad
  else if is_space c then SSkip
  else SStop.

(** [unsigned char in[4]], mtev_b64.c:44: not initialised, [None] is an indeterminate value. *)
Definition inbuf := (option N * option N * option N * option N)%type.

(** mtev_b64.c:78 [in[ib++] = ch]. *)
Definition set_in (b : inbuf) (ib : nat) (v : N) : inbuf :=
  let '(a0, a1, a2, a3) := b in
  match ib with
  | O => (Some v, a1, a2, a3)
  | S O => (a0, Some v, a2, a3)
  | S (S O) => (a0, a1, Some v, a3)
  | _ => (a0, a1, a2, Some v)
  end.

(** binary operation on possibly indeterminate bytes (mtev_b64.c:80-82). *)
Definition op2 (f : N -> N -> N) (a b : option N) : option N :=
  match a, b with Some x, Some y => Some (f x y) | _, _ => None end.

(** mtev_b64.c:80-82. *)
Definition slow_out (b : inbuf) : list (option N) :=
  let '(a0, a1, a2, a3) := b in
  [ op2 (fun x y => u8 (N.lor (N.shiftl x 2) (N.shiftr (N.land y 48) 4))) a0 a1;
    op2 (fun x y => u8 (N.lor (N.shiftl (N.land x 15) 4) (N.shiftr (N.land y 60) 2))) a1 a2;
    op2 (fun x y => u8 (N.lor (N.shiftl (N.land x 3) 6) (N.land y 63))) a2 a3 ].

(** mtev_b64.c:74-75. *)
Definition pad_ob (ib : nat) : nat := if (Nat.eqb ib 1 || Nat.eqb ib 2)%bool then 1%nat else 2%nat.

(** mtev_b64.c:78-86. *)
Definition push (b : inbuf) (ib ob : nat) (v : N) : inbuf * nat * list (option N) :=
  let b' := set_in b ib v in
  if Nat.eqb (S ib) 4 then (b', O, firstn ob (slow_out b')) else (b', S ib, []).

(** mtev_b64.c:62-87; [ob] is never reset after padding. *)
Fixpoint slow_loop (src : list N) (b : inbuf) (ib ob : nat) : list (option N) :=
  match src with
  | [] => []
  | c :: r =>
      match classify c with
      | SStop => []
      | SSkip => slow_loop r b ib ob
      | SPad =>
          if Nat.eqb ib 0 then []
          else let '(b', ib', o) := push b 3 (pad_ob ib) 255 in o ++ slow_loop r b' ib' (pad_ob ib)
      | SVal v => let '(b', ib', o) := push b ib ob v in o ++ slow_loop r b' ib' ob
      end
  end.

(** [in] and [ib], [ob] on entry to the loop, mtev_b64.c:44-45. *)
Definition slow_decode (src : list N) : list (option N) := slow_loop src (None, None, None, None) 0 3.

(** size_t subtraction. *)
Definition wsub (a b : N) : N := (a + 2 ^ 64 - b) mod 2 ^ 64.

(** mtev_b64.c:45-55: does the size check let the call through? [k]-th last character. *)
Definition size_ok (src : list N) (dest_len : N) : bool :=
  let n := length src in
  let needed := N.of_nat (max_decode_len n) in
  let l2 := nth (n - 2) src 0 in
  let l1 := nth (n - 1) src 0 in
  if dest_len <? wsub needed 2 then false                           (* :49 *)
  else if (Nat.ltb 1 n) && negb (l2 =? 61) && (l1 =? 61) then       (* :50-52 *)
    negb (dest_len <? wsub needed 1)
  else if (Nat.ltb 1 n) && negb (l2 =? 61) && negb (l1 =? 61) then  (* :53-55 *)
    negb (dest_len <? needed)
  else true.

(** mtev_b64.c:39-89.  [ret]: value returned; [out]: contents of the first [ret] bytes of the
    destination; [extent]: one more than the largest offset stored to (both passes). *)
Record result := { ret : nat; out : list (option N); extent : nat }.

Definition decode (src : list N) (dest_len : N) : result :=
  if size_ok src dest_len then
    let '(ok, o) := fast_decode src in
    if ok then {| ret := length o; out := map Some o; extent := length o |}      (* :57-60 *)
    else let s := slow_decode src in
         {| ret := length s; out := s; extent := Nat.max (length o) (length s) |} (* :62-88 *)
  else {| ret := 0; out := []; extent := 0 |}.
