(** The making of the directories a file needs: mkdir_for_file of
    /repo/src/utils/mtev_mkdir.c.

    Simplifications.  The file system is a map from paths, lists of names from
    the root, to directories and other files; there are no symbolic links, and
    . and .. are names as others.  mkdir(2) fails as POSIX says; which
    directories the process may not make is a parameter.  No other process is at
    work. *)
From Coq Require Import List NArith Arith Bool.
Import ListNotations.

(** What is at a path (outside of /repo: POSIX). *)
Inductive kind := Dir | File.

(** A path: names from the root (outside of /repo: POSIX). *)
Definition path : Type := list (list N).

(** The file system (outside of /repo: POSIX). *)
Definition fs : Type := path -> option kind.

(** Outcomes of mkdir(2) that mkdir_for_file tells apart
    (mtev_mkdir.c:55-57). *)
Inductive err := Done | NoEnt | Exists | Other.

(** A string cut at each slash (outside of /repo: POSIX). *)
Fixpoint pieces (s : list N) : list (list N) :=
  match s with
  | [] => [[]]
  | x :: t =>
      if (x =? 47)%N then [] :: pieces t
      else match pieces t with
           | p :: r => (x :: p) :: r
           | [] => [[x]]
           end
  end.

(** The names in a string: those that are not empty (outside of /repo: POSIX). *)
Definition names (s : list N) : path :=
  filter (fun p => match p with [] => false | _ => true end) (pieces s).

(** Where the names of a string start from: the root, or the current directory
    (outside of /repo: POSIX). *)
Definition base (cwd : path) (s : list N) : path :=
  match s with
  | x :: _ => if (x =? 47)%N then [] else cwd
  | [] => cwd
  end.

(** Path resolution up to the last name (outside of /repo: POSIX). *)
Fixpoint walk (f : fs) (pre rest : path) : err :=
  match rest with
  | [] => Done
  | x :: r =>
      match r with
      | [] => Done
      | _ =>
          match f (pre ++ [x]) with
          | None => NoEnt
          | Some File => Other
          | Some Dir => walk f (pre ++ [x]) r
          end
      end
  end.

(** Paths compared (outside of /repo: POSIX). *)
Definition path_eqb (p q : path) : bool :=
  if list_eq_dec (list_eq_dec N.eq_dec) p q then true else false.

(** mkdir(2), called in mtev_mkdir.c:55, 58; [perm] says which directories may be
    made. *)
Definition mkdir (perm : path -> bool) (cwd : path) (f : fs) (s : list N)
  : fs * err :=
  match walk f (base cwd s) (names s) with
  | Done =>
      let d := base cwd s ++ names s in
      match f d with
      | Some _ => (f, Exists)
      | None =>
          if perm d
          then (fun q => if path_eqb q d then Some Dir else f q, Done)
          else (f, Other)
      end
  | e => (f, e)
  end.

(** PATH_MAX of Linux (mtev_mkdir.c:40). *)
Definition PATH_MAX : nat := Nat.pow 2 12.

(** The loop that moves eos back to a slash (mtev_mkdir.c:49). *)
Fixpoint back (s : list N) (i : nat) : nat :=
  match i with
  | O => O
  | S k => if (nth i s 0 =? 47)%N then i else back s k
  end.

(** The value of mkdir_for_file, 0 or -1, or a read outside of its buffer
    (mtev_mkdir.c:43-61). *)
Inductive res := Zero | Minus | Outside.

(** mkdir_for_file; each call is for a shorter string, so that a fuel of its
    length never runs out (mtev_mkdir.c:39-62). *)
Fixpoint mkdir_for (fuel : nat) (perm : path -> bool) (cwd : path) (f : fs)
         (s : list N) : fs * res :=
  match fuel with
  | O => (f, Minus)
  | S k =>
      match s with
      | [] => (f, Minus)
      | _ =>
          if (PATH_MAX <? length s)%nat then (f, Outside)
          else
            let copy := firstn (PATH_MAX - 1) s in
            let eos := back copy (length s - 1) in
            if (eos =? 0)%nat then (f, Minus)
            else
              let p := firstn eos copy in
              let again f1 :=
                match mkdir perm cwd f1 p with
                | (f2, Done) | (f2, Exists) => (f2, Zero)
                | (f2, _) => (f2, Minus)
                end in
              match mkdir perm cwd f p with
              | (f1, Done) | (f1, Exists) => (f1, Zero)
              | (f1, NoEnt) =>
                  match mkdir_for k perm cwd f1 p with
                  | (f2, Zero) => again f2
                  | (f2, Minus) => (f2, Minus)
                  | (f2, Outside) => (f2, Outside)
                  end
              | (f1, Other) => again f1
              end
      end
  end.

(** mkdir_for_file (mtev_mkdir.c:39-62). *)
Definition mkdir_for_file (perm : path -> bool) (cwd : path) (f : fs)
           (s : list N) : fs * res := mkdir_for (length s) perm cwd f s.
