(** What routing, the access control lists and the file handler are meant to
    do, without the data structures of the code. *)
From Coq Require Import NArith ZArith List Bool String.
From Verif.Btrie Require Model Spec.
From Verif.Rest Require Import Model.
Import ListNotations.
Local Open Scope list_scope.

(** pcre_exec reports groups inside the subject, the first one always *)
Definition span_in (s : bytes) (p : option (nat * nat)) : Prop :=
  match p with Some (a, b) => a <= b <= List.length s | None => True end.
Definition good_exec (e : env) : Prop :=
  forall re s g, exec e re s = Some g -> g <> [] /\ Forall (span_in s) g.
(** inet_pton gives addresses *)
Definition good_pton (e : env) : Prop := forall s f a, pton e s = Some (f, a) -> Btrie.Spec.address a.

(** * Routes *)

(** a call of mtev_http_rest_register...: base and the rest *)
Definition registration := (bytes * route)%type.
(** calls in order; a call that fails changes nothing *)
Definition register (e : env) (t : table) (g : registration) : table :=
  match new_rule e t (fst g) (snd g) with Some t' => t' | None => t end.
Definition registered (e : env) (gs : list registration) : table := fold_left (register e) gs [].

Definition accepted (e : env) (g : registration) : Prop :=
  (exists b, fst g = b ++ [47%N]) /\ compiles e (expression (snd g)) = true.
Definition is_base (e : env) (gs : list registration) (b : bytes) : Prop :=
  exists g, In g gs /\ accepted e g /\ fst g = b.
(** [u] is [b ++ rest] with [b] the longest base there is *)
Definition longest_base (e : env) (gs : list registration) (u b rest : bytes) : Prop :=
  u = b ++ rest /\ is_base e gs b /\
  forall b' rest', u = b' ++ rest' -> is_base e gs b' -> List.length b' <= List.length b.
(** the first element with a property *)
Definition first_such {A} (l : list A) (P : A -> Prop) (x : A) : Prop :=
  exists pre post, l = pre ++ x :: post /\ P x /\ forall y, In y pre -> ~ P y.
(** the route is for this kind of request *)
Definition fits (q : request) (r : route) : Prop :=
  if is_websocket q
  then method r = bs "WS" /\
       (forall a b, websocket_protocol r = Some a -> protocol q = Some b -> a = b)
  else method r = rmethod q.
(** the expression matches, with groups [g], at most nine groups in use *)
Definition matched (e : env) (re s : bytes) (g : list (option (nat * nat))) : Prop :=
  exec e re s = Some g /\ List.length g <= 10.
(** what the request is routed to *)
Definition candidate (e : env) (q : request) (b rest : bytes) (g : registration) : Prop :=
  accepted e g /\ fst g = b /\ fits q (snd g) /\ exists gr, matched e (expression (snd g)) rest gr.

(** the text of one group *)
Definition group_text (s : bytes) (p : option (nat * nat)) (x : bytes) : Prop :=
  match p with
  | None => x = []
  | Some (a, b) => exists pre post, s = pre ++ x ++ post /\ List.length pre = a /\ List.length x = b - a
  end.
(** the parameters are the texts of the groups after group 0 *)
Definition params_of (s : bytes) (g : list (option (nat * nat))) (ps : list bytes) : Prop :=
  exists p0 gs, g = p0 :: gs /\ Forall2 (group_text s) gs ps.

(** the route answers OPTIONS for this URL *)
Definition offers (e : env) (b rest : bytes) (g : registration) : bool :=
  (if list_eq_dec N.eq_dec (fst g) b then true else false) && compiles e (expression (snd g))
  && match exec e (expression (snd g)) rest with Some gr => Nat.leb (List.length gr) 10 | None => false end.
(** list of methods as in the header Allow *)
Fixpoint comma_list (l : list bytes) : bytes :=
  match l with [] => [] | [x] => x | x :: r => x ++ [44%N; 32%N] ++ comma_list r end.

(** * Access control lists *)

(** value of an attribute *)
Definition get (l : list (bytes * bytes)) (k : bytes) : option bytes :=
  option_map snd (find (fun a => if list_eq_dec N.eq_dec (fst a) k then true else false) l).
Definition is_allow (l : attrs) : bool :=
  match get l (bs "type") with Some t => if list_eq_dec N.eq_dec t (bs "allow") then true else false | None => false end.
Definition matches (e : env) (re s : bytes) : bool := match exec e re s with Some _ => true | None => false end.

(** text before and after the first '/' *)
Fixpoint before_slash (s : bytes) : bytes := match s with [] => [] | c :: r => if N.eqb c 47 then [] else c :: before_slash r end.
Definition mask_text (s : bytes) : option bytes :=
  match skipn (List.length (before_slash s)) s with [] => None | _ :: m => Some m end.
(** ip[/mask]: the network, with the mask between 0 and the width of an address *)
Definition network (e : env) (s : bytes) : option (Btrie.Model.family * list N * nat) :=
  match pton e (before_slash s) with
  | None => None
  | Some (f, a) =>
      let w := Btrie.Spec.fam_bits f in
      Some (f, a, match mask_text s with None => w | Some m => Nat.min w (Z.to_nat (atoi e m)) end)
  end.
(** the leading bits of the address are those of the network *)
Definition in_network (a : list N) (plen : nat) (f : Btrie.Model.family) (x : list N) : bool :=
  Nat.leb plen (Btrie.Spec.fam_bits f) &&
  Btrie.Spec.bits_eqb (firstn plen (Btrie.Spec.addr_bits a)) (firstn plen (Btrie.Spec.addr_bits x)).
Definition same_family (f g : Btrie.Model.family) : bool :=
  match f, g with Btrie.Model.V4, Btrie.Model.V4 | Btrie.Model.V6, Btrie.Model.V6 => true | _, _ => false end.

(** the attributes listener_xxx *)
Definition listener_attrs (l : attrs) : list (bytes * bytes) :=
  map (fun a => (skipn 9 (fst a), snd a))
      (filter (fun a => if list_eq_dec N.eq_dec (firstn 9 (fst a)) (bs "listener_") then true else false) l).

(** ** The conditions as written in the configuration *)
Definition re_holds (e : env) (l : attrs) (k : string) (subject : bytes) : bool :=
  match get l (bs k) with None => true | Some re => matches e re subject end.
Definition ip_holds (e : env) (l : attrs) (r : option Btrie.Model.family * list N) : bool :=
  match get l (bs "ip") with
  | None => true
  | Some s => match network e s, fst r with
              | Some (f, a, n), Some g => same_family f g && in_network a n g (snd r)
              | _, _ => false
              end
  end.
Definition listener_holds (e : env) (l : attrs) (cfg : list (bytes * bytes)) : bool :=
  forallb (fun a => match get cfg (fst a) with Some v => matches e (snd a) v | None => false end) (listener_attrs l).
Definition holds (e : env) (q : client) (l : attrs) : bool :=
  re_holds e l "user" (remote_user q) && re_holds e l "auth" (remote_auth q) && re_holds e l "cn" (remote_cn q)
  && re_holds e l "url" (uri_str q) && ip_holds e l (remote q) && listener_holds e l (config q).

(** the first list that applies decides, in it the first rule that applies,
    else [fallback] of the list; nothing applies: no *)
Definition decide (holds : attrs -> bool) (fallback : attrs -> bool) (conf : list node) : bool :=
  match find (fun n => holds (nattrs n)) conf with
  | None => false
  | Some n => match find holds (children n) with
              | Some r => is_allow r
              | None => fallback (nattrs n)
              end
  end.

(** ** The conditions as the code takes them: an expression is cut at 255
    characters; one that does not compile is no condition; one whose match
    has more than nine groups does not hold; an address is cut at 50
    characters, one that is not understood is no condition; the families are
    not told apart *)
Definition matches9 (e : env) (re s : bytes) : bool :=
  match exec e re s with Some g => Nat.leb (List.length g) 10 | None => false end.
Definition re_taken (e : env) (l : attrs) (k : string) (subject : bytes) : bool :=
  match get l (bs k) with
  | None => true
  | Some re => negb (compiles e (firstn 255 re)) || matches9 e (firstn 255 re) subject
  end.
Definition ip_taken (e : env) (l : attrs) (r : option Btrie.Model.family * list N) : bool :=
  match get l (bs "ip") with
  | None => true
  | Some s => match network e (firstn 50 s) with
              | None => true
              | Some (f, a, n) => match fst r with Some g => in_network a n g (snd r) | None => false end
              end
  end.
Definition listener_taken (e : env) (l : attrs) (cfg : list (bytes * bytes)) : bool :=
  forallb (fun a => negb (compiles e (snd a)) || match get cfg (fst a) with Some v => matches9 e (snd a) v | None => false end)
          (listener_attrs l).
Definition taken (e : env) (q : client) (l : attrs) : bool :=
  re_taken e l "user" (remote_user q) && re_taken e l "auth" (remote_auth q) && re_taken e l "cn" (remote_cn q)
  && re_taken e l "url" (uri_str q) && ip_taken e l (remote q) && listener_taken e l (config q).

(** every address is one *)
Definition good_client (q : client) : Prop := Btrie.Spec.address (snd (remote q)).

(** ** A configuration without the cases in which the two differ *)
Definition good_re (e : env) (re : bytes) : Prop :=
  List.length re <= 255 /\ compiles e re = true /\ forall s g, exec e re s = Some g -> List.length g <= 10.
Definition good_ip (e : env) (g : option Btrie.Model.family) (s : bytes) : Prop :=
  List.length s <= 50 /\ exists f a n, network e s = Some (f, a, n) /\ (g = None \/ g = Some f).
Definition good_attrs (e : env) (q : client) (l : attrs) : Prop :=
  (forall k re, In k ["user"%string; "auth"%string; "cn"%string; "url"%string] -> get l (bs k) = Some re -> good_re e re) /\
  (forall s, get l (bs "ip") = Some s -> good_ip e (fst (remote q)) s) /\
  (forall a, In a (listener_attrs l) -> compiles e (snd a) = true /\
             forall s g, exec e (snd a) s = Some g -> List.length g <= 10).
Definition good_conf (e : env) (q : client) (conf : list node) : Prop :=
  forall n, In n conf -> good_attrs e q (nattrs n) /\ forall r, In r (children n) -> good_attrs e q r.
Definition no_skipto (conf : list node) : Prop :=
  forall n r, In n conf -> In r (children n) -> get r (bs "skipto") = None.

(** the rule that decides has skipto, to the name of a rule of its own or of
    a later list *)
Definition skips (tk : attrs -> bool) (conf : list node) : Prop :=
  exists pre n post rpre r rpost k n' r',
    conf = pre ++ n :: post /\ (forall m, In m pre -> tk (nattrs m) = false) /\ tk (nattrs n) = true /\
    children n = rpre ++ r :: rpost /\ (forall x, In x rpre -> tk x = false) /\ tk r = true /\
    get r (bs "skipto") = Some k /\ In n' (n :: post) /\ In r' (children n') /\ get r' (bs "name") = Some k.

(** * Files *)
(** a file below the directory *)
Definition below (root f : bytes) : Prop := exists x, f = root ++ 47%N :: x.
(** the name of a file without its directory, and its extension *)
Definition base_name (f name : bytes) : Prop := ~ In 47%N name /\ exists d, f = d ++ 47%N :: name.
Definition extension (name ext : bytes) : Prop := ~ In 46%N ext /\ exists b, name = b ++ 46%N :: ext.
(** type of an extension: the configuration of the listener, then the table *)
Definition type_of (cfg mimes : list (bytes * bytes)) (ext : bytes) : bytes :=
  match get cfg (bs "mime_type_" ++ ext) with
  | Some t => t
  | None => match get mimes ext with Some t => t | None => bs "application/octet-stream" end
  end.

(** Taking "." and ".." out of a path, as realpath does where there are no
    links *)
Fixpoint components (s : bytes) (cur : bytes) : list bytes :=
  match s with
  | [] => [rev cur]
  | c :: r => if N.eqb c 47 then rev cur :: components r [] else components r (c :: cur)
  end.
Fixpoint resolve (l : list bytes) (acc : list bytes) : list bytes :=
  match l with
  | [] => rev acc
  | c :: r => match c with
              | [] | [46%N] => resolve r acc
              | [46%N; 46%N] => resolve r (tl acc)
              | _ => resolve r (c :: acc)
              end
  end.
Definition plain_realpath (s : bytes) : option bytes :=
  match resolve (components s []) [] with
  | [] => Some [47%N]
  | l => Some (flat_map (fun c => 47%N :: c) l)
  end.
(** The file a request for [p] asks for: below the root, and the index file of a directory. *)
Definition asked (root index p : bytes) : bytes :=
  root ++ [47%N] ++ p ++ (if match rev p with [] => true | c :: _ => N.eqb c 47 end then index else []).
