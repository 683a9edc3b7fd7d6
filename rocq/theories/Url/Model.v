(** Model of src/utils/mtev_url.c.  Memory is a function from addresses (Z) to bytes (N),
    so that source and destination may overlap; a run yields the final memory, the value
    returned and the list of addresses stored to.  Sizes are assumed far below 2^64
    (src_len * 3 does not wrap). *)
From Coq Require Import ZArith NArith List Bool.
Import ListNotations.
Open Scope Z_scope.

(** byte-addressed memory (parameters [src], [dest] of mtev_url.c:70,100 are addresses in it). *)
Definition mem := Z -> N.
(** one byte store [*p = v] (mtev_url.c:80,84,113,115-117,120). *)
Definition put (m : mem) (a : Z) (v : N) : mem := fun x => if x =? a then v else m x.

(** Outcome of a call: [ret = None] stands for the error return 0. *)
Record run := { rmem : mem; ret : option Z; wrote : list Z }.

(** mtev_url.c:47-51, the 256-bit map [isallowed] as eight 32-bit words. *)
Definition isallowed_words : list N :=
  [0x0; 0x3ff6000; 0x87fffffe; 0x47fffffe; 0x0; 0x0; 0x0; 0x0]%N.
(** ck_bitmap_test(&isallowed.bitmap, c), mtev_url.c:83,112. *)
Definition isallowed (c : N) : bool :=
  N.testbit (nth (N.to_nat (c / 32)) isallowed_words 0%N) (c mod 32).

(** mtev_url.c:52-64 [hexval]: zero except at '1'-'9', 'A'-'F', 'a'-'f'. *)
Definition hexval (c : N) : N :=
  (if (49 <=? c) && (c <=? 57) then c - 48
   else if (65 <=? c) && (c <=? 70) then c - 55
   else if (97 <=? c) && (c <=? 102) then c - 87
   else 0)%N.

(** mtev_url.c:66-67. *)
Definition hexchars : list N := [48;49;50;51;52;53;54;55;56;57;65;66;67;68;69;70]%N.
(** mtev_url.c:116-117 indexing [_hexchars]; 256 = out of range. *)
Definition hexchar (i : N) : N := nth (N.to_nat i) hexchars 256%N.

(** mtev_url.c:78-79: is the character a hexadecimal digit for the decoder? *)
Definition hexok (c : N) : bool := negb (hexval c =? 0)%N || (c =? 48)%N.

(** mtev_url.c:75-91: [i] is the read index, [outp] the write address. *)
Fixpoint decode_loop (fuel : nat) (m : mem) (src : Z) (i n : Z) (dest outp : Z) (w : list Z) : run :=
  if negb (i <? n) then {| rmem := m; ret := Some (outp - dest); wrote := w |}          (* :75,:91 *)
  else match fuel with
  | O => {| rmem := m; ret := None; wrote := w |}          (* not reachable with fuel >= n - i *)
  | S f =>
      if N.eqb (m (src + i)) 37 then                                                      (* :76 *)
        if n <=? i + 2 then {| rmem := m; ret := None; wrote := w |}                     (* :77 *)
        else if hexok (m (src + i + 1)) && hexok (m (src + i + 2)) then                  (* :78-79 *)
          let v := N.lor (N.shiftl (hexval (m (src + i + 1))) 4) (hexval (m (src + i + 2))) in
          decode_loop f (put m outp v) src (i + 3) n dest (outp + 1) (outp :: w)         (* :80-81 *)
        else {| rmem := m; ret := None; wrote := w |}
      else if isallowed (m (src + i)) then                                               (* :83-84 *)
        decode_loop f (put m outp (m (src + i))) src (i + 1) n dest (outp + 1) (outp :: w)
      else {| rmem := m; ret := None; wrote := w |}                                      (* :86-89 *)
  end.

(** mtev_url.c:69-92. *)
Definition url_decode (m : mem) (src : Z) (src_len : nat) (dest dest_len : Z) : run :=
  let n := Z.of_nat src_len in
  if dest_len <? n + 1 then {| rmem := m; ret := None; wrote := [] |}                    (* :72 *)
  else decode_loop src_len m src 0 n dest dest [].

(** mtev_url.c:94-97. *)
Definition url_max_decode_len (n : Z) : Z := n + 1.

(** addresses a, a+1, ..., a+n-1 (extent of the memmove at mtev_url.c:107). *)
Fixpoint addrs (a : Z) (n : nat) : list Z :=
  match n with O => [] | S k => a :: addrs (a + 1) k end.

(** memmove(dst, src, n), mtev_url.c:107. *)
Definition memmove (m : mem) (dst src n : Z) : mem :=
  fun x => if (dst <=? x) && (x <? dst + n) then m (src + (x - dst)) else m x.

(** mtev_url.c:111-121; source bytes are re-read from memory at each use. *)
Fixpoint encode_loop (k : nat) (m : mem) (src dest outp : Z) (w : list Z) : run :=
  match k with
  | O => {| rmem := put m outp 0%N; ret := Some (outp - dest); wrote := outp :: w |}     (* :120-121 *)
  | S k' =>
      if isallowed (m src) then
        encode_loop k' (put m outp (m src)) (src + 1) dest (outp + 1) (outp :: w)        (* :113 *)
      else
        let m1 := put m outp 37%N in                                                     (* :115 *)
        let m2 := put m1 (outp + 1) (hexchar (N.shiftr (m1 src) 4)) in                   (* :116 *)
        let m3 := put m2 (outp + 2) (hexchar (N.land (m2 src) 15)) in                    (* :117 *)
        encode_loop k' m3 (src + 1) dest (outp + 3) (outp + 2 :: outp + 1 :: outp :: w)
  end.

(** mtev_url.c:99-122. *)
Definition url_encode (m : mem) (src : Z) (src_len : nat) (dest dest_len : Z) : run :=
  let n := Z.of_nat src_len in
  let inplace := (dest <=? src) && (src <? dest + dest_len) in                           (* :103 *)
  let m1 := if inplace then memmove m (dest + dest_len - n) src n else m in              (* :107 *)
  let src1 := if inplace then dest + dest_len - n else src in                            (* :108 *)
  let w := if inplace then addrs (dest + dest_len - n) src_len else [] in
  if dest_len <? n * 3 then {| rmem := m1; ret := None; wrote := w |}                    (* :110 *)
  else encode_loop src_len m1 src1 dest dest w.

(** mtev_url.c:124-127. *)
Definition url_encode_len (n : Z) : Z := n * 3 + 1.

(** HTML: result, with the bytes stored at offsets 0,1,... of the destination. *)
Record hrun := { hret : option nat; hstores : list N }.

(** mtev_url.c:136-179: replacement text of a character and the slack (the 4, 5 or 1 in
    [dend - (1 + k)]; the default case tests [dend - 2]). *)
Definition html_repl (c : N) : list N :=
  (if c =? 60 then [38;108;116;59]            (* :137-143  < -> &lt;  *)
   else if c =? 62 then [38;103;116;59]       (* :144-150  > -> &gt;  *)
   else if c =? 38 then [38;97;109;112;59]    (* :151-158  & -> &amp; *)
   else if c =? 34 then [38;35;51;52;59]      (* :159-166  quote -> &#34; *)
   else if c =? 39 then [38;35;51;57;59]      (* :167-174  ' -> &#39; *)
   else [c])%N.                               (* :175-178 *)

(** mtev_url.c:138,145,152,160,168,176: the amount subtracted from [dend]. *)
Definition html_slack (c : N) : Z :=
  if ((c =? 60) || (c =? 62))%N then 5
  else if ((c =? 38) || (c =? 34) || (c =? 39))%N then 6
  else 2.

(** mtev_url.c:135-183, [off] = dest - dest_in. *)
Fixpoint html_loop (src : list N) (off dest_len : Z) : hrun :=
  match src with
  | [] => {| hret := Some O; hstores := [0%N] |}                                         (* :182 *)
  | c :: r =>
      if (c =? 0)%N then {| hret := Some O; hstores := [0%N] |}                          (* :135 *)
      else if dest_len - html_slack c <=? off then {| hret := None; hstores := [] |}
      else
        let rep := html_repl c in
        let q := html_loop r (off + Z.of_nat (length rep)) dest_len in
        {| hret := match hret q with Some k => Some (length rep + k)%nat | None => None end;
           hstores := rep ++ hstores q |}
  end.

(** mtev_url.c:129-184. *)
Definition html_encode (src : list N) (dest_len : Z) : hrun :=
  if dest_len <? 1 then {| hret := None; hstores := [] |}                                (* :134 *)
  else html_loop src 0 dest_len.

(** mtev_url.c:185-188. *)
Definition html_encode_len (n : Z) : Z := n * 5 + 1.
