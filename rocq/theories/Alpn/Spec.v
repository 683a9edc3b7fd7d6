(** What the choice of a protocol should be, apart from the model. *)
From Coq Require Import List NArith ZArith Arith Bool.
From Verif Require Import Alpn.Model.
Import ListNotations.

(** Names of protocols have from 1 to 255 bytes (RFC 7301). *)
Definition valid (ps : list (list N)) : Prop :=
  Forall (fun p => (1 <= length p <= 255)%nat) ps.

(** A list of names as it is sent: each after its length. *)
Definition wire (ps : list (list N)) : list N :=
  flat_map (fun p => N.of_nat (length p) :: p) ps.

(** A name has a function. *)
Definition known (c : ctx) (p : list N) : bool :=
  match lookup c p with Some _ => true | None => false end.

(** A string cut at each comma. *)
Fixpoint pieces (s : list N) : list (list N) :=
  match s with
  | [] => [[]]
  | x :: t =>
      if (x =? 44)%N then [] :: pieces t
      else match pieces t with
           | p :: r => (x :: p) :: r
           | [] => [[x]]
           end
  end.

(** The names in a string: the pieces that are not empty. *)
Definition names (s : list N) : list (list N) :=
  filter (fun p => match p with [] => false | _ => true end) (pieces s).

(** Some of a list, in order. *)
Inductive sub : list (list N) -> list (list N) -> Prop :=
| sub_nil : forall l, sub [] l
| sub_take : forall x a l, sub a l -> sub (x :: a) (x :: l)
| sub_skip : forall x a l, sub a l -> sub a (x :: l).

(** The name [p] is offered in [ps] at that place. *)
Definition picks (ps : list (list N)) (o : nat * nat) (p : list N) : Prop :=
  exists a b, ps = a ++ p :: b /\ fst o = (length (wire a) + 1)%nat /\
              snd o = length p.

(** The functions asked about an offer, in order: for a name without one, the
    one asked before is asked again. *)
Fixpoint asked (c : ctx) (last : list func) (ps : list (list N)) : list func :=
  match ps with
  | [] => []
  | p :: r =>
      let now := match lookup c p with Some g => [g] | None => last end in
      now ++ asked c now r
  end.

(** The outcome is that of the first function not to pass. *)
Fixpoint verdict (fs : list func) (inn : list N) : res :=
  match fs with
  | [] => NoAck
  | f :: r =>
      if (fst (f inn) <? 0)%Z then NoAck
      else if (fst (f inn) =? 1)%Z then Ok (snd (f inn))
      else verdict r inn
  end.

(** A function that chooses among what is offered. *)
Definition honest (f : func) : Prop :=
  forall ps, valid ps -> ps <> [] -> fst (f (wire ps)) = 1%Z ->
  exists o p, snd (f (wire ps)) = Some o /\ picks ps o p.

(** All the names of a context have the function that comes with the library:
    the one used when none is given, or the matcher made for that name. *)
Definition stock (c : ctx) : Prop :=
  forall p f, lookup c p = Some f -> f = always \/ f = matcher p.

(** What is chosen is a name that was offered, is known, and was advertised. *)
Definition C174_full : Prop :=
  forall c ps s o,
    stock c -> valid ps -> select (advertise c (Some s)) (wire ps) = Ok (Some o) ->
    exists p, picks ps o p /\ known c p = true /\ In p (names s).

(** A client that offers just one name, which is advertised and has a matcher,
    gets it. *)
Definition C175_full : Prop :=
  forall c p, (1 <= length p <= 200)%nat -> ~ In 44%N p ->
    lookup c p = Some (matcher p) ->
    exists o, select (advertise c (Some p)) (wire [p]) = Ok (Some o) /\
              picks [p] o p.

(** NPN offers every known name. *)
Definition C176_full : Prop :=
  forall c s, filter (known c) (names s) <> [] ->
    (length (wire (filter (known c) (names s))) <= 254)%nat ->
    next_proto (advertise c (Some s)) = Some (wire (filter (known c) (names s))).
