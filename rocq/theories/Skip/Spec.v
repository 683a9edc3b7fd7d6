(** An ordered set: a list kept sorted by a comparator. *)
From Coq Require Import Arith NArith ZArith List Bool.
From Verif.Skip Require Import Model.
Import ListNotations.
Local Open Scope Z_scope.

Section S.
Variables comp compk : N -> N -> Z.

(** [comp] orders the data; [compk] looks for a key in that order *)
Record ordered : Prop := {
  o_eq : forall a, comp a a = 0;
  o_anti : forall a b, Z.sgn (comp a b) = - Z.sgn (comp b a);
  o_trans : forall a b c, comp a b <= 0 -> comp b c < 0 -> comp a c < 0;
  o_key_before : forall k a b, comp a b < 0 -> compk k a <= 0 -> compk k b < 0
}.

(** the elements before, equal to and after a key *)
Definition before (k : N) (l : list N) : list N := filter (fun x => 0 <? compk k x) l.
Definition at_key (k : N) (l : list N) : list N := filter (fun x => compk k x =? 0) l.
Definition after (k : N) (l : list N) : list N := filter (fun x => compk k x <? 0) l.
(** insertion in order *)
Fixpoint ins (d : N) (l : list N) : list N :=
  match l with
  | [] => [d]
  | x :: l => if comp d x <? 0 then d :: x :: l else x :: ins d l
  end.
Definition last_error (l : list N) : option N := hd_error (rev l).
(** myfree is called for the data unless NULL *)
Definition freed (myfree : bool) (l : list N) : list N := if myfree then filter (fun d => negb (N.eqb d 0)) l else [].

Definition sstep (l : list N) (o : op) : list N * result :=
  match o with
  | Insert d _ => if existsb (fun x => comp d x =? 0) l then (l, RIns false None) else (ins d l, RIns true (Some d))
  | Find k =>
      match at_key k l with
      | x :: _ => (l, RFind (Some x) (last_error (before k l)) (hd_error (after k l)) (x :: rev (before k l)) (x :: after k l))
      | [] => (l, RFind None (last_error (before k l)) (hd_error (after k l)) [] [])
      end
  | Remove k myfree =>
      match at_key k l with
      | x :: _ => (before k l ++ after k l, RRem true (freed myfree [x]))
      | [] => (l, RRem false [])
      end
  | Pop myfree => match l with [] => ([], RPop 0 []) | x :: l => (l, RPop x (freed myfree [x])) end
  | Peek => (l, RPeek (match l with [] => 0%N | x :: _ => x end))
  | Size => (l, RSize (Z.of_nat (length l)))
  | List_ => (l, RList l)
  | RemoveAll myfree => ([], RAll (freed myfree l))
  end.
Fixpoint srun (l : list N) (os : list op) : list N * list result :=
  match os with
  | [] => (l, [])
  | o :: os => let (l, r) := sstep l o in let (l, rs) := srun l os in (l, r :: rs)
  end.
(** strictly increasing *)
Fixpoint sorted (l : list N) : Prop :=
  match l with
  | [] => True
  | x :: l => Forall (fun y => comp x y < 0) l /\ sorted l
  end.
End S.
