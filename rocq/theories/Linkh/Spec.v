(** What users expect of JSON objects and arrays. *)
From Coq Require Import NArith ZArith List Bool.
From Verif Require Import Linkh.Model.
Import ListNotations.

(** * Objects: maps in the order of insertion *)
Definition omap := list (key * value).

Definition same (a b : key) : bool := if list_eq_dec N.eq_dec a b then true else false.
Definition has (m : omap) (s : key) : bool := existsb (fun e => same (fst e) s) m.
(** NULL stands for an absent key as well as for the JSON null. *)
Definition get (m : omap) (s : key) : value :=
  match find (fun e => same (fst e) s) m with Some e => snd e | None => None end.
Definition del (m : omap) (s : key) : omap := filter (fun e => negb (same (fst e) s)) m.
Definition add (m : omap) (s : key) (x : value) : omap := del m s ++ [(s, x)].
(** what del takes away *)
Definition gone (m : omap) (s : key) : omap := filter (fun e => same (fst e) s) m.

Inductive op := Add (s : key) (x : value) | Del (s : key) | Get (s : key).

(** An object, what was released so far, and the answers of Get. *)
Record world := mkw { obj : omap; let_go : omap; answers : list value }.
Definition w0 : world := mkw [] [] [].
Definition expect (w : world) (o : op) : world :=
  match o with
  | Add s x => mkw (add (obj w) s x) (let_go w ++ gone (obj w) s) (answers w)
  | Del s => mkw (del (obj w) s) (let_go w ++ gone (obj w) s) (answers w)
  | Get s => mkw (obj w) (let_go w) (answers w ++ [get (obj w) s])
  end.
Definition expects (w : world) (l : list op) : world := fold_left expect l w.

(** The calls, one after the other. *)
Definition do_op (hash : key -> N) (t : table) (o : op) : res (table * list value) :=
  match o with
  | Add s x => bind (object_add hash t s x) (fun t => Done (t, []))
  | Del s => bind (object_del hash t s) (fun t => Done (t, []))
  | Get s => bind (object_get hash t s) (fun x => Done (t, [x]))
  end.
Fixpoint run (hash : key -> N) (t : table) (l : list op) : res (table * list value) :=
  match l with
  | [] => Done (t, [])
  | o :: l' =>
      bind (do_op hash t o) (fun r =>
      bind (run hash (fst r) l') (fun q => Done (fst q, snd r ++ snd q)))
  end.

(** How many members Del takes away. *)
Fixpoint removals (m : omap) (l : list op) : nat :=
  match l with
  | [] => 0
  | Add s x :: l' => removals (add m s x) l'
  | Del s :: l' => (if has m s then 1 else 0) + removals (del m s) l'
  | Get s :: l' => removals m l'
  end.

(** * Arrays: sequences with holes *)
Inductive aop := Put (i : N) (x : value) | Push (x : value).
Definition do_aop (a : alist) (o : aop) : res alist :=
  match o with Put i x => array_put a (Z.of_N i) x | Push x => array_add a x end.
Fixpoint aruns (a : alist) (l : list aop) : res alist :=
  match l with [] => Done a | o :: l' => bind (do_aop a o) (fun a => aruns a l') end.

(** The length, what is at an index, and the pointers replaced. *)
Record aworld := mkaw { len : N; at_ : N -> value; replaced : list N }.
Definition aw0 : aworld := mkaw 0 (fun _ => None) [].
Definition pointer (x : value) : list N := match x with Some p => [p] | None => [] end.
Definition aput (w : aworld) (i : N) (x : value) : aworld :=
  mkaw (N.max (len w) (i + 1)) (fun j => if N.eqb j i then x else at_ w j) (replaced w ++ pointer (at_ w i)).
Definition aexpect (w : aworld) (o : aop) : aworld :=
  match o with Put i x => aput w i x | Push x => aput w (len w) x end.
Definition aexpects (w : aworld) (l : list aop) : aworld := fold_left aexpect l w.

(** * Text buffers *)
Inductive pop := Append (s : list N) | AppendFast (s : list N) | Clear.
Definition do_pop (p : pbuf) (o : pop) : res pbuf :=
  match o with Append s => memappend p s | AppendFast s => memappend_fast p s | Clear => pb_reset p end.
Fixpoint pruns (p : pbuf) (l : list pop) : res pbuf :=
  match l with [] => Done p | o :: l' => bind (do_pop p o) (fun p => pruns p l') end.
Definition pexpect (s : list N) (o : pop) : list N :=
  match o with Append x => s ++ x | AppendFast x => s ++ x | Clear => [] end.

(** * What was handed over *)
Definition given (l : list op) : omap := flat_map (fun o => match o with Add s x => [(s, x)] | _ => [] end) l.
Definition agiven (l : list aop) : list N := flat_map (fun o => match o with Put _ x | Push x => pointer x end) l.
