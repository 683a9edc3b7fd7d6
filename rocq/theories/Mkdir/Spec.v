(** What mkdir_for_file should do, apart from the model. *)
From Coq Require Import List NArith Arith Bool.
From Verif Require Import Mkdir.Model.
Import ListNotations.

(** The directory a file is to be in: what comes before the last slash, if that
    is not the first byte. *)
Definition holds (d s : list N) : Prop :=
  d <> [] /\ exists n, s = d ++ 47%N :: n /\ ~ In 47%N n.

(** The root and the current directory are there. *)
Definition rooted (cwd : path) (f : fs) : Prop :=
  f [] = Some Dir /\ f cwd = Some Dir.

(** Where a string leads. *)
Definition place (cwd : path) (s : list N) : path := base cwd s ++ names s.

(** A directory on the way to where a string leads, or that one. *)
Definition on_way (cwd : path) (s : list N) (q : path) : Prop :=
  exists k, q = base cwd s ++ firstn k (names s).

(** When it answers 0, the directory is there. *)
Definition C177_full : Prop :=
  forall perm cwd f d s,
    rooted cwd f -> holds d s -> (length s < PATH_MAX)%nat ->
    snd (mkdir_for_file perm cwd f s) = Zero ->
    fst (mkdir_for_file perm cwd f s) (place cwd d) = Some Dir.

(** It answers 0 if the directory a file is to be in is there. *)
Definition C179_full : Prop :=
  forall perm cwd f s n,
    rooted cwd f -> (length s < PATH_MAX)%nat -> names s <> [] ->
    names s = removelast (names s) ++ [n] ->
    f (base cwd s ++ removelast (names s)) = Some Dir ->
    snd (mkdir_for_file perm cwd f s) = Zero.

(** No file name makes it read outside of its buffer. *)
Definition C180_full : Prop :=
  forall perm cwd f s, snd (mkdir_for_file perm cwd f s) <> Outside.
