(** What the hash table should do: a finite map from byte strings to a key pointer and a value. *)
From Coq Require Import Arith NArith List Bool Permutation.
From Verif.Hash Require Import Model.
Import ListNotations.
Local Open Scope N_scope.

Definition fmap := list (list N * (N * N)).
Definition key_dec : forall a b : list N, {a = b} + {a <> b} := list_eq_dec N.eq_dec.
Fixpoint lookup (k : list N) (m : fmap) : option (N * N) :=
  match m with
  | [] => None
  | (k', v) :: m => if key_dec k k' then Some v else lookup k m
  end.
Fixpoint remove (k : list N) (m : fmap) : fmap :=
  match m with
  | [] => []
  | (k', v) :: m => if key_dec k k' then remove k m else (k', v) :: remove k m
  end.
Definition bind (k : list N) (v : N * N) (m : fmap) : fmap := (k, v) :: remove k m.

(** the key an operation names: the first klen bytes at the address it gives *)
Definition bytes (u : N -> list N) (k klen : N) : list N := firstn (N.to_nat klen) (u k).
(** that memory can be read *)
Definition readable (u : N -> list N) (k klen : N) : Prop := klen <= N.of_nat (length (u k)) /\ klen < 2 ^ 31.

Definition frees (kf df : bool) (v : N * N) : list fev :=
  (if kf then [FKey (fst v)] else []) ++ (if df then [FData (snd v)] else []).

(** caller memory, the map; what an operation does, returns and frees *)
Definition sstep (u : N -> list N) (m : fmap) (o : op) : (N -> list N) * fmap * result * list fev :=
  match o with
  | New p b => (updN u p b, m, RUnit, [])
  | Store k klen d => match lookup (bytes u k klen) m with
                      | Some _ => (u, m, RInt 0, [])
                      | None => (u, bind (bytes u k klen) (k, d) m, RInt 1, [])
                      end
  | SetOp k klen d => match lookup (bytes u k klen) m with
                      | Some old => (u, bind (bytes u k klen) (k, d) m, RSet 2 (Some old), [])
                      | None => (u, bind (bytes u k klen) (k, d) m, RSet 1 None, [])
                      end
  | Replace k klen d kf df => match lookup (bytes u k klen) m with
                              | Some old => (u, bind (bytes u k klen) (k, d) m, RInt 2, frees kf df old)
                              | None => (u, bind (bytes u k klen) (k, d) m, RInt 1, [])
                              end
  | Retrieve k klen => (u, m, match lookup (bytes u k klen) m with Some v => RRet 1 (Some (snd v)) | None => RRet 0 None end, [])
  | Get k klen => (u, m, RPtr (match lookup (bytes u k klen) m with Some v => snd v | None => 0 end), [])
  | Delete k klen kf df => match lookup (bytes u k klen) m with
                           | Some old => (u, remove (bytes u k klen) m, RInt 1, frees kf df old)
                           | None => (u, m, RInt 0, [])
                           end
  | DeleteAll kf df => (u, [], RUnit, flat_map (fun b => frees kf df (snd b)) m)
  | Size => (u, m, RInt (N.of_nat (length m)), [])
  | Iterate => (u, m, RList (map (fun b => (fst (snd b), N.of_nat (length (fst b)), snd (snd b))) m), [])
  end.
Definition ok (u : N -> list N) (o : op) : Prop :=
  match o with
  | Store k klen _ | SetOp k klen _ | Replace k klen _ _ _ | Retrieve k klen | Get k klen | Delete k klen _ _ => readable u k klen
  | _ => True
  end.
Fixpoint srun (u : N -> list N) (m : fmap) (os : list op) : (N -> list N) * fmap * list (result * list fev) :=
  match os with
  | [] => (u, m, [])
  | o :: os => let '(u, m, r, ev) := sstep u m o in let '(u, m, l) := srun u m os in (u, m, (r, ev) :: l)
  end.
Fixpoint oks (u : N -> list N) (m : fmap) (os : list op) : Prop :=
  match os with
  | [] => True
  | o :: os => ok u o /\ let '(u, m, _, _) := sstep u m o in oks u m os
  end.

(** iteration and freeing everything go in any order *)
Definition agree (a b : result * list fev) : Prop :=
  Permutation (snd a) (snd b) /\
  match fst a, fst b with
  | RList l, RList l' => Permutation l l'
  | r, r' => r = r'
  end.

(** the bytes of the C string at [p] *)
Definition string_at (u : N -> list N) (p : N) (b : list N) : Prop := ~ In 0 b /\ exists rest, u p = b ++ 0 :: rest.

(** one binding of the source: a key that is a C string taken with or without its NUL, and NULL or a C string *)
Definition dict_entry (u : N -> list N) (b : N) (e : N * N * N) : Prop :=
  let '(kp, klen, d) := e in
  (exists kb, string_at u kp kb /\ klen <= N.of_nat (length kb) + 1) /\ klen < 2 ^ 31 /\ kp < b /\ d < b /\
  (d = 0 \/ exists vb, string_at u d vb).
Definition ekey (u : N -> list N) (e : N * N * N) : list N := let '(kp, klen, _) := e in bytes u kp klen.
(** the effect of merging bindings [src] into map [m]: old memory is unchanged; other keys keep their binding; each key
    of the source is bound to fresh copies of its key and value *)
Definition merged (u : N -> list N) (b : N) (src : list (N * N * N)) (m : fmap) (u' : N -> list N) (m' : fmap) : Prop :=
  (forall p, p < b -> u' p = u p) /\
  (forall k, ~ In k (map (ekey u) src) -> lookup k m' = lookup k m) /\
  forall kp klen d kb, In (kp, klen, d) src -> string_at u kp kb ->
    exists k' d', lookup (bytes u kp klen) m' = Some (k', d') /\ u' k' = kb ++ [0] /\ b <= k' /\
      (d = 0 -> d' = 0) /\ (forall vb, d <> 0 -> string_at u d vb -> u' d' = vb ++ [0] /\ b <= d').
