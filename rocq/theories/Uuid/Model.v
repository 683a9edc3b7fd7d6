(** Model of src/utils/mtev_uuid_parse.c.  A C string is the list of bytes readable from
    its address; reading past the list is [Fault]. *)
From Coq Require Import Arith NArith List Bool.
Import ListNotations.
Open Scope N_scope.

(** mtev_uuid_parse.c:9-19 [lut]. *)
Definition lut (c : N) : N :=
  if (48 <=? c) && (c <=? 57) then c - 48
  else if (65 <=? c) && (c <=? 70) then c - 55
  else if (97 <=? c) && (c <=? 102) then c - 87
  else 0.

(** isxdigit() in the C locale, mtev_uuid_parse.c:49 (a negative [char] argument is outside
    the domain of isxdigit; bytes of 128 and more are taken as non-digits). *)
Definition isxdigit (c : N) : bool :=
  ((48 <=? c) && (c <=? 57)) || ((65 <=? c) && (c <=? 70)) || ((97 <=? c) && (c <=? 102)).

(** mtev_uuid_parse.c:37-41: positions where a dash is required. *)
Definition dash_pos (len : nat) : bool :=
  (Nat.eqb len 8 || Nat.eqb len 13 || Nat.eqb len 18 || Nat.eqb len 23)%bool.

(** Return 0 with the bytes written, return -1, or a read outside the string. *)
Inductive outcome := Accept (uu : list N) | Reject | Fault.

(** mtev_uuid_parse.c:36-57; [s] is what [p] points to, [out] the bytes written so far. *)
Fixpoint parse_loop (fuel : nat) (len : nat) (s : list N) (out : list N) : outcome :=
  match fuel with
  | O => Fault                                    (* not reached with 21 rounds *)
  | S f =>
      if Nat.ltb len 36 then
        if dash_pos len then
          match s with
          | [] => Fault
          | c :: r => if c =? 45 then parse_loop f (S len) r out else Reject       (* :42-47 *)
          end
        else
          match s with
          | [] => Fault
          | a :: r =>
              if isxdigit a then
                match r with
                | [] => Fault
                | b :: r2 =>
                    if isxdigit b
                    then parse_loop f (S (S len)) r2 (out ++ [N.lor (lut a * 16) (lut b)])  (* :51-54 *)
                    else Reject
                end
              else Reject                                                        (* :49-50 *)
          end
      else
        match s with
        | [] => Fault
        | c :: _ => if c =? 0 then Accept out else Reject                        (* :56-57 *)
        end
  end.

(** mtev_uuid_parse.c:30-58. *)
Definition uuid_parse (s : list N) : outcome := parse_loop 21 0 s [].

(** mtev_uuid_parse.c:23-25, 26-28. *)
Definition reverse_lut : list N := [48;49;50;51;52;53;54;55;56;57;97;98;99;100;101;102].
Definition reverse_uut : list N := [48;49;50;51;52;53;54;55;56;57;65;66;67;68;69;70].

(** indexing [cmap], mtev_uuid_parse.c:66-67. *)
Definition cm (cmap : list N) (i : N) : N := nth (N.to_nat i) cmap 256.

(** mtev_uuid_parse.c:68-74: dash after bytes 3, 5, 7 and 9. *)
Definition dash_after (i : nat) : bool :=
  (Nat.eqb i 3 || Nat.eqb i 5 || Nat.eqb i 7 || Nat.eqb i 9)%bool.

(** mtev_uuid_parse.c:65-77, from byte index [i] on (terminator included). *)
Fixpoint unparse_loop (cmap : list N) (i : nat) (uu : list N) : list N :=
  match uu with
  | [] => [0]
  | b :: r =>
      cm cmap (N.shiftr (N.land b 240) 4) :: cm cmap (N.land b 15) ::
      (if dash_after i then 45 :: unparse_loop cmap (S i) r else unparse_loop cmap (S i) r)
  end.

(** mtev_uuid_parse.c:80-91: characters stored, including the terminator. *)
Definition unparse_lower (uu : list N) : list N := unparse_loop reverse_lut 0 uu.
(** mtev_uuid_parse.c:84-87. *)
Definition unparse (uu : list N) : list N := unparse_loop reverse_lut 0 uu.
(** mtev_uuid_parse.c:88-91. *)
Definition unparse_upper (uu : list N) : list N := unparse_loop reverse_uut 0 uu.
