(** What an endpoint of a reverse socket is to do, said over what is seen of it.
    A history is a list of events, newest first. *)
From Coq Require Import List NArith Arith Bool Lia.
From Verif Require Import Rsock.Model.
Import ListNotations.
Local Open Scope N_scope.

(** The bytes of a frame: two for the channel, with the highest bit set for a
    command, four for the length, most significant first, then the payload. *)
Definition enc (f : frame) : list N :=
  let id := if fcmd f then 32768 + fch f else fch f in
  let n := N.of_nat (length (fdat f)) in
  [ id / 256; id mod 256;
    n / 16777216; n / 65536 mod 256; n / 256 mod 256; n mod 256 ] ++ fdat f.

(** Several frames, one after the other. *)
Definition encs (fs : list frame) : list N := flat_map enc fs.

(** The frames that may be sent. *)
Definition valid (f : frame) : Prop :=
  fch f < 512 /\ N.of_nat (length (fdat f)) <= 65530.

(** Six bytes that announce a frame that may not be sent. *)
Definition bad_header (h : list N) : Prop :=
  exists a b c d e f,
    h = [a; b; c; d; e; f] /\
    (65530 < ((c * 256 + d) * 256 + e) * 256 + f \/
     512 <= (a * 256 + b) mod 32768).

(** Everything read from the shared connection. *)
Fixpoint rxs (l : list ev) : list N :=
  match l with
  | [] => []
  | ERx b :: t => rxs t ++ b
  | _ :: t => rxs t
  end.

(** Everything written to the shared connection. *)
Fixpoint txs (l : list ev) : list N :=
  match l with
  | [] => []
  | ETx b :: t => txs t ++ b
  | _ :: t => txs t
  end.

(** The frames that were acted on, oldest first. *)
Fixpoint frames (l : list ev) : list frame :=
  match l with
  | [] => []
  | EFrame f _ :: t => frames t ++ [f]
  | _ :: t => frames t
  end.

(** The local connection a channel belongs to. *)
Fixpoint owner (l : list ev) (c : N) : option N :=
  match l with
  | [] => None
  | ECon n d :: t | EAcc n d :: t => if d =? c then Some n else owner t c
  | EClose n _ :: t =>
      match owner t c with
      | Some m => if m =? n then None else Some m
      | None => None
      end
  | _ :: t => owner t c
  end.

(** The channel a local connection was opened on. *)
Fixpoint chan_of (l : list ev) (n : N) : N :=
  match l with
  | [] => 0
  | ECon m d :: t | EAcc m d :: t => if m =? n then d else chan_of t n
  | _ :: t => chan_of t n
  end.

(** Is a frame this command? *)
Definition is_cmd (f : frame) (s : list N) : Prop := fcmd f = true /\ fdat f = s.

(** Decided. *)
Definition is_cmdb (f : frame) (s : list N) : bool :=
  fcmd f && (if list_eq_dec N.eq_dec (fdat f) s then true else false).

(** The frames owed to the peer, oldest first: CONNECT for each connection
    opened here, the bytes read from a local connection, SHUTDOWN when one ends
    on this side, and RESET for each frame on a channel nobody has, except for a
    RESET and for a CONNECT that is granted. *)
Fixpoint owed (l : list ev) : list frame :=
  match l with
  | [] => []
  | ECon n c :: t => owed t ++ [Fr true c s_connect]
  | ERead n b :: t => owed t ++ [Fr false (chan_of t n) b]
  | EClose n Loud :: t => owed t ++ [Fr true (chan_of t n) s_shutdown]
  | EFrame f ok :: t =>
      owed t ++
      match owner t (fch f) with
      | Some _ => []
      | None =>
          if is_cmdb f s_reset then []
          else if is_cmdb f s_connect && ok then []
          else [Fr true (fch f) s_reset]
      end
  | _ :: t => owed t
  end.

(** The frames that came for a local connection, oldest first. *)
Fixpoint came (l : list ev) (n : N) : list frame :=
  match l with
  | [] => []
  | EFrame f _ :: t =>
      came t n ++
      match owner t (fch f) with
      | Some m => if m =? n then [f] else []
      | None => []
      end
  | _ :: t => came t n
  end.

(** The bytes given to a local connection. *)
Fixpoint given (l : list ev) (n : N) : list N :=
  match l with
  | [] => []
  | EDeliv m b :: t => given t n ++ (if m =? n then b else [])
  | _ :: t => given t n
  end.

(** A frame that carries data. *)
Definition data (f : frame) : Prop := fcmd f = false /\ fdat f <> [].

(** The payloads of frames. *)
Definition bytes (fs : list frame) : list N := flat_map fdat fs.

(** [a] is where [b] begins. *)
Definition begins (a b : list N) : Prop := exists r, b = a ++ r.

(** What may bring the shared connection down. *)
Definition failure (t : list ev) : Prop :=
  In EHup t \/
  exists h, rxs t = encs (frames t) ++ h /\ bad_header h.

(** Which events may follow which. *)
Definition fits (e : ev) (t : list ev) : Prop :=
  match e with
  | EAcc n c =>
      (exists t', t = EFrame (Fr true c s_connect) true :: t' /\
                  owner t' c = None) /\
      came t n = [] /\ given t n = []
  | ECon n c =>
      owner t c = None /\ c < 512 /\ came t n = [] /\ given t n = []
  | EDeliv n b =>
      (exists c, owner t c = Some n) /\ b <> [] /\
      (exists ds rest, came t n = ds ++ rest /\ Forall data ds /\
                       begins (given t n ++ b) (bytes ds))
  | ERead n b =>
      (exists c, owner t c = Some n) /\ b <> [] /\
      N.of_nat (length b) <= 65530
  | EEnd n => exists c, owner t c = Some n
  | EClose n Loud =>
      (exists c, owner t c = Some n) /\
      ((exists t', t = EEnd n :: t') \/
       exists ds f rest,
         came t n = ds ++ f :: rest /\ Forall data ds /\
         given t n = bytes ds /\ ~ data f /\
         ~ is_cmd f s_reset /\ ~ is_cmd f s_close)
  | EClose n Quiet =>
      (exists c, owner t c = Some n) /\
      exists ds f rest,
        came t n = ds ++ f :: rest /\ Forall data ds /\
        given t n = bytes ds /\ (is_cmd f s_reset \/ is_cmd f s_close)
  | EClose n Failed => (exists c, owner t c = Some n) /\ failure t
  | _ => True
  end.

(** A CONNECT on a free channel, when a connection can be made, is granted at
    once. *)
Definition due (e : ev) (t : list ev) : Prop :=
  match t with
  | EFrame f true :: t' =>
      is_cmd f s_connect -> owner t' (fch f) = None ->
      exists n, e = EAcc n (fch f)
  | _ => True
  end.

(** A history in which every event fits. *)
Fixpoint lawful (l : list ev) : Prop :=
  match l with
  | [] => True
  | e :: t => fits e t /\ due e t /\ lawful t
  end.

(** The answers of the shared connection are bytes. *)
Definition byte_op (o : op) : Prop :=
  match o with
  | OMain rs _ =>
      Forall (fun r => match r with
                       | RGot l _ => Forall (fun b => b < 256) l
                       | _ => True
                       end) rs
  | _ => True
  end.

(** How many frames came for local connections. *)
Fixpoint taken (l : list ev) : nat :=
  match l with
  | [] => 0
  | EFrame f _ :: t =>
      taken t + match owner t (fch f) with Some _ => 1 | None => 0 end
  | _ :: t => taken t
  end.

(** Bytes that hold no whole frame at their start. *)
Definition no_frame (p : list N) : Prop :=
  forall f r, valid f -> p <> enc f ++ r.

(** The CONNECT of a connection opened here is all written. *)
Definition announced (l : list ev) (n : N) : Prop :=
  exists l1 c l2,
    l = l1 ++ ECon n c :: l2 /\
    (length (encs (owed (ECon n c :: l2))) <= length (txs l))%nat.

(** A connection opened here is given nothing before its peer can know of it. *)
Definition C169_full : Prop :=
  forall os l1 n b l2 c,
    Forall byte_op os -> log (run os init) = l1 ++ EDeliv n b :: l2 ->
    In (ECon n c) l2 -> announced l2 n.

(** One call of the handler acts on a bounded number of frames. *)
Definition C170_full : Prop :=
  exists k, forall os rs ws,
    Forall byte_op (os ++ [OMain rs ws]) ->
    (length (frames (log (run (os ++ [OMain rs ws]) init))) <=
     length (frames (log (run os init))) + k)%nat.

(** A connection that is closed because its local end stopped sending was given
    all the data that had come for it. *)
Definition C171_full : Prop :=
  forall os l1 n l2,
    Forall byte_op os ->
    log (run os init) = l1 ++ EClose n Loud :: EEnd n :: l2 ->
    forall ds rest, came l2 n = ds ++ rest -> Forall data ds ->
      begins (bytes ds) (given l2 n).
