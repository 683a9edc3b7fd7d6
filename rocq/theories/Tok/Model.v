(** Model of the command line tokenizer, src/mtev_tokenizer.re and the scanner generated from it,
    src/mtev_tokenizer.c.  The input is the list of its bytes before the terminating NUL; positions
    are offsets; reading past the NUL yields [None].  malloc is taken to succeed. *)
From Coq Require Import Arith NArith ZArith List Bool.
Import ListNotations.
Local Open Scope N_scope.

(** one byte of the NUL terminated input (mtev_tokenizer.c:87,100,142,165,178,189,207,220,240,248) *)
Definition rd (s : list N) (i : nat) : option N := nth_error (s ++ [0]) i.

(** the white space cases (mtev_tokenizer.c:90-93,169-172,192-195) *)
Definition is_ws (c : N) : bool := (c =? 9) || (c =? 10) || (c =? 13) || (c =? 32).

(** what the escape switch assigns for the character after a backslash (mtev_tokenizer.c:54-67) *)
Definition unescape_char (c : N) : list N :=
  if c =? 32 then [32] else if c =? 34 then [34] else if c =? 110 then [10]
  else if c =? 114 then [13] else if c =? 116 then [9] else if c =? 97 then [7]
  else if c =? 98 then [8] else if c =? 118 then [11] else if c =? 102 then [12]
  else if c =? 48 then [0] else if c =? 92 then [92] else [92; c].

(** mtev_tokenizer.c:49-74 on the bytes before the NUL; the result is what ends up stored before the
    final NUL.  The code works in place, never writing ahead of where it reads. *)
Fixpoint c_unescape (only : option N) (p : list N) : list N :=
  match p with
  | [] => []
  | c :: r =>
      match r with
      | d :: r' =>
          if (c =? 92) && (match only with None => true | Some o => d =? o end)
          then unescape_char d ++ c_unescape only r'
          else c :: c_unescape only r
      | [] => c :: c_unescape only r
      end
  end.

(** malloc and strlcpy of the text between start and end (mtev_tokenizer.c:116-117,132-133,149-150) *)
Definition copy (s : list N) (a b : nat) : list N := firstn (b - a) (skipn a s).

Inductive ttype := NT_IDENT | NT_DQSTRING | NT_SPACE | NT_UNKNOWN | NT_EOF.

(** struct token, mtev_tokenizer.c:40-46 *)
Record token := { text : option (list N); start : nat; end_ : nat; next : nat; type : ttype }.

(** outcome of token_scan: the return value and the token, [Oob] a read past the NUL, [Fuel] an
    artefact of the model excluded by the theorems *)
Inductive scan := Ret (rc : Z) (t : token) | Oob | Fuel.

(** yy16/yy17 (mtev_tokenizer.c:187-197): offset of the first byte that is not white space *)
Fixpoint scan_ws (fuel : nat) (s : list N) (i : nat) : option (option nat) :=
  match fuel with
  | O => None
  | S f => match rd s i with
           | None => Some None
           | Some c => if is_ws c then scan_ws f s (S i) else Some (Some i)
           end
  end.

(** yy12-yy14 (mtev_tokenizer.c:163-186): [esc] is state yy14, entered after a backslash *)
Fixpoint scan_ident (fuel : nat) (s : list N) (esc : bool) (i : nat) : option (option nat) :=
  match fuel with
  | O => None
  | S f => match rd s i with
           | None => Some None
           | Some c =>
               if (c =? 0) || (c =? 9) || (c =? 10) || (c =? 13) then Some (Some i)
               else if (c =? 32) && negb esc then Some (Some i)
               else if c =? 92 then scan_ident f s true (S i)
               else scan_ident f s false (S i)
           end
  end.

(** yy21 (mtev_tokenizer.c:218-225) *)
Fixpoint scan_sq (fuel : nat) (s : list N) (i : nat) : option (option nat) :=
  match fuel with
  | O => None
  | S f => match rd s i with
           | None => Some None
           | Some c => if (c =? 0) || (c =? 39) then Some (Some i) else scan_sq f s (S i)
           end
  end.

(** dqstring (mtev_tokenizer.c:235-291): [inl next] is BAIL_UNKNOWN, [inr (end, next)] goes on to
    mainpattern.  yy28 falls through to yy29 (lines 263-269). *)
Fixpoint scan_dq (fuel : nat) (s : list N) (i : nat) : option (option (nat + nat * nat)) :=
  match fuel with
  | O => None
  | S f =>
      match rd s i with
      | None => Some None
      | Some c =>
          if c =? 0 then Some (Some (inl (S i)))
          else if c =? 34 then Some (Some (inr (S i, i)))
          else if c =? 92 then
            match rd s (S i) with
            | None => Some None
            | Some d => if d =? 0 then Some (Some (inr (S (S i), S i)))
                        else scan_dq f s (S (S i))
            end
          else scan_dq f s (S i)
      end
  end.

Definition set (t : token) (x : option (list N)) (a b n : nat) (ty : ttype) : token :=
  {| text := x; start := a; end_ := b; next := n; type := ty |}.

(** mainpattern (mtev_tokenizer.c:81-198) with the two quoted states it jumps to and from *)
Fixpoint mainpattern (fuel : nat) (s : list N) (t : token) : scan :=
  match fuel with
  | O => Fuel
  | S f =>
      let i := next t in
      match rd s i with
      | None => Oob
      | Some c =>
          if c =? 0 then Ret 0 (set t None (start t) (end_ t) (S i) NT_EOF)
          else if is_ws c then
            match scan_ws (length s + 2) s (S i) with
            | None => Fuel | Some None => Oob
            | Some (Some n) => Ret 1 (set t None (start t) n n NT_SPACE)
            end
          else if c =? 34 then
            if negb (Nat.eqb (start t) (end_ t)) then
              Ret 1 (set t (Some (c_unescape None (copy s (S (start t)) (S i - 1))))
                         (S (start t)) (S i - 1) (S i) NT_DQSTRING)
            else match scan_dq (length s + 2) s (S i) with
                 | None => Fuel | Some None => Oob
                 | Some (Some (inl n)) => Ret (-1) (set t (text t) (start t) (end_ t) n NT_UNKNOWN)
                 | Some (Some (inr (e, n))) =>
                     mainpattern f s (set t (text t) (start t) e n NT_DQSTRING)
                 end
          else if c =? 39 then
            if negb (Nat.eqb (start t) (end_ t)) then
              Ret 1 (set t (Some (copy s (S (start t)) (S i - 1)))
                         (S (start t)) (S i - 1) (S i) NT_IDENT)
            else (* sqstring, mtev_tokenizer.c:202-231 *)
              match rd s (S i) with
              | None => Oob
              | Some d =>
                  if d =? 0 then
                    Ret (-1) (set t (text t) (start t) (end_ t) (S (S i)) NT_UNKNOWN)
                  else if d =? 39 then mainpattern f s (set t (text t) (start t) (S i) (S i) NT_IDENT)
                  else match scan_sq (length s + 2) s (S (S i)) with
                       | None => Fuel | Some None => Oob
                       | Some (Some n) => mainpattern f s (set t (text t) (start t) n n NT_IDENT)
                       end
              end
          else
            match scan_ident (length s + 2) s false (S i) with
            | None => Fuel | Some None => Oob
            | Some (Some n) => Ret 1 (set t (Some (c_unescape (Some 32) (copy s (start t) n)))
                                          (start t) n n NT_IDENT)
            end
      end
  end.

(** mtev_tokenizer.c:77-294 *)
Definition token_scan (s : list N) (t : token) : scan :=
  mainpattern 3 s (set t (text t) (next t) (next t) (next t) (type t)).

(** what mtev_tokenize leaves: return value, *cnt, the filled part of the vector, and the tokens
    found (those beyond *cnt are allocated and dropped) *)
Inductive outcome :=
  | Done (ret : Z) (cnt : nat) (vector : list (list N)) (found : list (list N))
  | TOob | TFuel.

(** lines 311 and 319: if(i < *cnt) *cnt = i *)
Definition finish (ret : Z) (cnt : nat) (toks : list (list N)) : outcome :=
  let i := length toks in
  Done ret (if Nat.ltb i cnt then i else cnt) (firstn cnt toks) toks.

(** mtev_tokenizer.c:296-321; [toks] are the tokens stored so far *)
Fixpoint tokenize_loop (fuel : nat) (s : list N) (t : token) (cnt : nat) (toks : list (list N)) : outcome :=
  match fuel with
  | O => TFuel
  | S f =>
      match token_scan s t with
      | Fuel => TFuel
      | Oob => TOob
      | Ret rc t' =>
          if (rc =? -1)%Z then finish (0 - Z.of_nat (next t')) cnt toks
          else match type t' with
               | NT_IDENT | NT_DQSTRING =>
                   tokenize_loop f s t' cnt
                     (toks ++ [match text t' with Some x => x | None => [] end])
               | NT_SPACE => tokenize_loop f s t' cnt toks
               | NT_EOF => finish (Z.of_nat (length toks)) cnt toks
               | NT_UNKNOWN => finish (0 - Z.of_nat (next t')) cnt toks
               end
      end
  end.

(** mtev_tokenizer.c:296-321 *)
Definition tokenize (s : list N) (cnt : nat) : outcome :=
  tokenize_loop (length s + 2) s {| text := None; start := 0; end_ := 0; next := 0; type := NT_UNKNOWN |}
                cnt [].
