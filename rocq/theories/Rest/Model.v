(** Model of src/mtev_rest.c: registration and choice of a route, the access
    control lists of the configuration and their evaluation, and the file
    handler. PCRE, inet_pton, atoi, realpath and the callbacks of the
    application are parameters. *)
From Coq Require Import NArith ZArith List Bool String Ascii.
From Verif.Btrie Require Model.
Import ListNotations.
Local Open Scope list_scope.

(** a C string: its characters before the NUL *)
Definition bytes := list N.
(** the characters of a string literal of the source *)
Definition bs (s : string) : bytes := map N_of_ascii (list_ascii_of_string s).
Definition beq (a b : bytes) : bool := if list_eq_dec N.eq_dec a b then true else false. (* strcmp() == 0 *)

(** How a call ends: it returns, or it reads memory that is not its own. *)
Inductive res (A : Type) := Done (a : A) | Bad.
Arguments Done {A} a.
Arguments Bad {A}.
Definition bind {A B} (x : res A) (f : A -> res B) : res B := (* one C statement after another *)
  match x with Done a => f a | Bad => Bad end.

(** What is outside: pcre_compile (pcre.h; whether the expression compiles),
    pcre_exec (the offsets of the groups 0 up to the last one that took part,
    [None] for a group that did not), inet_pton for both families
    (mtev_rest.c:1417,1420; the address as the words of Btrie) and atoi
    (mtev_rest.c:1414). *)
Record env := mkenv {
  compiles : bytes -> bool;
  exec : bytes -> bytes -> option (list (option (nat * nat)));
  pton : bytes -> option (Btrie.Model.family * list N);
  atoi : bytes -> Z }.

(** int ovector[30] holds ten pairs: pcre_exec returns the number of pairs
    set, 0 when there are more than fit, and a negative number when the
    expression does not match (mtev_rest.c:482,498,369,379) *)
Definition pcre_rc (e : env) (re subject : bytes) : Z :=
  match exec e re subject with
  | None => -1
  | Some g => if Nat.leb (List.length g) 10 then Z.of_nat (List.length g) else 0
  end.
(** ovector after a call that returned more than 0: start and end of each
    pair, -1 for a group that did not take part *)
Definition ovector (e : env) (re subject : bytes) : list (Z * Z) :=
  match exec e re subject with
  | None => []
  | Some g => map (fun p => match p with Some (s, t) => (Z.of_nat s, Z.of_nat t) | None => (-1, -1)%Z end) g
  end.

(** * Routes *)

(** mtev_rest.c:79-97 struct rest_url_dispatcher; functions and closures are
    numbers, [None] is NULL *)
Record route := mkroute {
  method : bytes;
  expression : bytes;
  websocket_protocol : option bytes;
  handler : option N;
  websocket_handler : option N;
  auth : option N;
  closure : N }.

(** mtev_rest.c:146-150 struct rule_container; the list in order *)
Record container := mkcont { base : bytes; rules : list route }.
(** mtev_rest.c:151 dispatch_points, a hash table from base to container *)
Definition table := list container.

(** mtev_hash_retrieve on dispatch_points (mtev_rest.c:328,720) *)
Fixpoint retrieve (t : table) (b : bytes) : option container :=
  match t with
  | [] => None
  | c :: r => if beq (base c) b then Some c else retrieve r b
  end.
(** mtev_rest.c:727-733 the rule goes to the end of its container *)
Fixpoint append_rule (t : table) (b : bytes) (r : route) : table :=
  match t with
  | [] => []
  | c :: rest => if beq (base c) b then mkcont (base c) (rules c ++ [r]) :: rest else c :: append_rule rest b r
  end.
(** mtev_rest.c:680-735 mtev_http_rest_new_rule_auth_closure; [None] is the
    NULL returned *)
Definition new_rule (e : env) (t : table) (b : bytes) (r : route) : option table :=
  let blen := List.length b in
  if Nat.eqb blen 0 || negb (N.eqb (nth (blen - 1) b 0%N) 47) then None            (* :694 *)
  else if negb (compiles e (expression r)) then None                              (* :698 *)
  else
    let t := match retrieve t b with                                              (* :720 *)
             | None => t ++ [mkcont b []]
             | Some _ => t
             end in
    Some (append_rule t b r).

(** The part of a request that is looked at: the method, the URI, whether it
    is a websocket request, the header sec-websocket-protocol. *)
Record request := mkreq { rmethod : bytes; uri : bytes; is_websocket : bool; protocol : option bytes }.

(** mtev_rest.c:324-335 the loop over eob, from the end; [n] is eob - uri_str
    + 1. The position after the base comes with the container. *)
Fixpoint find_base (t : table) (u : bytes) (n : nat) : option (container * nat) :=
  match n with
  | O => None
  | S m =>
      if N.eqb (nth m u 0%N) 47
      then match retrieve t (firstn (S m) u) with
           | Some c => Some (c, S m)
           | None => find_base t u m
           end
      else find_base t u m
  end.

(** mtev_rest.c:378-380 the copy of one group: malloc, memcpy, NUL *)
Definition copy_group (subject : bytes) (p : Z * Z) : res bytes :=
  let (s, t) := p in
  if (t - s <? 0)%Z then Bad
  else if (t - s =? 0)%Z then Done []
  else if ((s <? 0) || (Z.of_nat (List.length subject) <? t))%Z then Bad
  else Done (firstn (Z.to_nat (t - s)) (skipn (Z.to_nat s) subject)).
(** mtev_rest.c:376-382 *)
Fixpoint copy_groups (subject : bytes) (l : list (Z * Z)) : res (list bytes) :=
  match l with
  | [] => Done []
  | p :: r => bind (copy_group subject p) (fun x => bind (copy_groups subject r) (fun xs => Done (x :: xs)))
  end.

(** mtev_rest.c:362-367 is the rule for this kind of request? *)
Definition method_fits (q : request) (r : route) : bool :=
  if is_websocket q then
    beq (method r) (bs "WS")
    && negb (match websocket_protocol r, protocol q with
             | Some a, Some b => negb (beq a b)
             | _, _ => false
             end)
  else beq (method r) (rmethod q).

(** mtev_rest.c:358-386 *)
Fixpoint find_rule (e : env) (q : request) (subject : bytes) (l : list route) : res (option (route * list bytes)) :=
  match l with
  | [] => Done None
  | r :: rest =>
      if method_fits q r && (0 <? pcre_rc e (expression r) subject)%Z
      then bind (copy_groups subject (tl (ovector e (expression r) subject))) (fun ps => Done (Some (r, ps)))
      else find_rule e q subject rest
  end.

(** mtev_rest.c:343-357 the value of *allowed_methods *)
Fixpoint allowed (e : env) (subject : bytes) (l : list route) (am : option bytes) : option bytes :=
  match l with
  | [] => am
  | r :: rest =>
      allowed e subject rest
        (if (0 <? pcre_rc e (expression r) subject)%Z
         then Some (match am with Some p => p | None => bs "OPTIONS" end ++ bs ", " ++ method r)
         else am)
  end.

(** mtev_rest.c:309-388 mtev_http_find_matching_route_rule: the rule with
    the parameters, and the allowed methods (only when they are asked for) *)
Definition matching_route (e : env) (t : table) (q : request) (want : bool)
  : res (option (route * list bytes) * option bytes) :=
  match find_base t (uri q) (List.length (uri q)) with
  | None => Done (None, None)
  | Some (c, eob) =>
      let subject := skipn eob (uri q) in
      if beq (bs "OPTIONS") (rmethod q)
      then Done (None, if want then allowed e subject (rules c) None else None)
      else bind (find_rule e q subject (rules c)) (fun r => Done (r, None))
  end.

(** The callbacks: the authorisation functions of the routes, the hook
    mtev_rest_get_handler with the fastpath it leaves, the hook
    rest_auth_denied with the handler it leaves. *)
Inductive hook := HDone | HContinue | HAbort.
Record callbacks := mkcb {
  authorize : N -> bool;
  get_handler_hook : hook * option N;
  auth_denied_hook : hook * option N }.

(** mtev_rest.c:413-470, 922-935 what is run for a request: a handler with
    closure and parameters, one of the handlers of this file, or 404 *)
Inductive answer :=
| NotFound
| Options (methods : bytes)
| Denied                             (* mtev_http_rest_permission_denied *)
| ErrorHandler                       (* mtev_http_rest_error *)
| Other (h : N)                      (* a handler put there by a hook *)
| Run (h : N) (cl : N) (params : list bytes).

(** the handler rest_auth_denied starts from, mtev_rest.c:434 *)
Definition permission_denied : N := 0.

(** mtev_rest.c:413-470 mtev_http_get_handler with fastpath not set; the
    choice of a thread is left out *)
Definition get_handler (e : env) (a : callbacks) (t : table) (q : request) : res answer :=
  bind (matching_route e t q true) (fun mr =>
  match mr with
  | (None, Some am) => Done (Options am)                                          (* :420 *)
  | (rule, _) =>
      match fst (get_handler_hook a) with
      | HAbort => Done NotFound
      | HDone => Done (match snd (get_handler_hook a) with Some h => Other h | None => NotFound end)
      | HContinue =>
          match rule with
          | None => Done NotFound
          | Some (r, ps) =>
              let accept := Done (match handler r with Some h => Run h (closure r) ps | None => NotFound end) in
              match auth r with
              | None => accept
              | Some f =>
                  if authorize a f then accept
                  else match fst (auth_denied_hook a) with                        (* :438 *)
                       | HAbort => Done ErrorHandler
                       | _ => match snd (auth_denied_hook a) with
                              | Some h => Done (if N.eqb h permission_denied then Denied else Other h)
                              | None => accept                                    (* :443 *)
                              end
                       end
              end
          end
      end
  end).

(** mtev_rest.c:390-411 mtev_http_get_websocket_handler: the handler returned
    and restc->websocket_handler_memo *)
Definition get_websocket_handler (e : env) (a : callbacks) (t : table) (q : request) : res (option N * option N) :=
  bind (matching_route e t q false) (fun mr =>
  match fst mr with
  | None => Done (None, None)
  | Some (r, ps) =>
      let memo := websocket_handler r in                                          (* :401 *)
      if match auth r with Some f => negb (authorize a f) | None => false end     (* :403 *)
      then Done (None, memo)
      else Done (memo, memo)
  end).
(** mtev_rest.c:790-804 mtev_rest_websocket_dispatcher: the handler the message
    goes to, [None] for 404, and the memo after *)
Definition websocket_dispatcher (e : env) (a : callbacks) (t : table) (q : request) (memo : option N)
  : res (option N * option N) :=
  match memo with
  | Some h => Done (Some h, memo)
  | None => get_websocket_handler e a t q
  end.
(** wslay calls the dispatcher for every message in what it has read, also
    after one that failed (mtev_http1.c:1624-1649); [n] messages *)
Fixpoint websocket_messages (e : env) (a : callbacks) (t : table) (q : request) (memo : option N) (n : nat)
  : res (list (option N)) :=
  match n with
  | O => Done []
  | S m => bind (websocket_dispatcher e a t q memo) (fun hm =>
           bind (websocket_messages e a t q (snd hm) m) (fun l => Done (fst hm :: l)))
  end.

(** mtev_rest.c:652-665 mtev_http_rest_websocket_register_auth_closure: two
    registrations *)
Definition websocket_register_auth (e : env) (t : table) (b expr : bytes) (proto : option bytes) (wf : N) (au : option N) (cl : N) : option table :=
  match new_rule e t b (mkroute (bs "WS") expr proto None (Some wf) None cl) with
  | None => None
  | Some t1 => match new_rule e t1 b (mkroute (bs "GET") expr None None None au 0) with
               | Some t2 => Some t2
               | None => Some t1
               end
  end.

(** * Access control lists *)

(** An XML element acl or rule: the attributes in order; the elements rule in
    an acl. *)
Definition attrs := list (bytes * bytes).
Record node := mknode { nattrs : attrs; children : list attrs }.

(** mtev_conf_get_string of an attribute, mtev_conf.c:2125-2206 *)
Fixpoint attr (l : attrs) (k : bytes) : option bytes :=
  match l with
  | [] => None
  | (a, v) :: r => if beq a k then Some v else attr r k
  end.
(** mtev_conf_get_stringbuf, mtev_conf.c:2209-2219: strlcpy to len bytes *)
Definition stringbuf (l : attrs) (k : bytes) (len : nat) : option bytes :=
  option_map (firstn (len - 1)) (attr l k).

(** mtev_rest.c:1505-1512 compile_re: NULL unless the attribute is there and
    compiles *)
Definition compile_re (e : env) (l : attrs) (name : string) : option bytes :=
  match stringbuf l (bs name) 256 with
  | Some buff => if compiles e buff then Some buff else None
  | None => None
  end.

(** strchr(ipbuf, '/') and what is before and after, mtev_rest.c:1411-1414 *)
Fixpoint split_slash (s : bytes) : bytes * option bytes :=
  match s with
  | [] => ([], None)
  | c :: r => if N.eqb c 47 then ([], Some r) else let (a, b) := split_slash r in (c :: a, b)
  end.
(** mtev_rest.c:1404-1427 compile_cidr; the trie starts as NULL. The buffer
    has INET6_ADDRSTRLEN + 5 bytes. *)
Definition compile_cidr (e : env) (l : attrs) : Btrie.Model.res Btrie.Model.tree :=
  match stringbuf l (bs "ip") 51 with
  | None => Btrie.Model.Ok Btrie.Model.Nil
  | Some ipbuf =>
      let (ip, slash) := split_slash ipbuf in
      let mask := match slash with Some m => Z.max 0 (atoi e m) | None => 0%Z end in
      let clamp (m : Z) := match slash with None => m | Some _ => if (m <? mask)%Z then m else mask end in
      match pton e ip with
      | Some (Btrie.Model.V4, a) => Btrie.Model.add_ipv4 Btrie.Model.Nil a (Z.to_nat (clamp 32%Z)) 1
      | Some (Btrie.Model.V6, a) => Btrie.Model.add_ipv6 Btrie.Model.Nil a (Z.to_nat (clamp 128%Z)) 1
      | None => Btrie.Model.Ok Btrie.Model.Nil
      end
  end.

(** strncmp(key, "listener_", 9) == 0 and the rest, mtev_rest.c:1394-1395 *)
Definition listener_key (k : bytes) : option bytes :=
  if beq (firstn 9 k) (bs "listener_") then Some (skipn 9 k) else None.
(** mtev_rest.c:1388-1403 accrue_and_compile over the attributes: what is
    stored, and the sum of the results *)
Fixpoint accrue (e : env) (l : attrs) : list (bytes * bytes) * nat :=
  match l with
  | [] => ([], 0)
  | (k, v) :: r =>
      let (ht, cnt) := accrue e r in
      match listener_key k with
      | None => (ht, cnt)
      | Some k' => if compiles e v then ((k', v) :: ht, S cnt) else (ht, S cnt)
      end
  end.
(** mtev_rest.c:1428-1441 compile_listener_res *)
Definition compile_listener_res (e : env) (l : attrs) : option (list (bytes * bytes)) :=
  let (ht, cnt) := accrue e l in if Nat.eqb cnt 0 then None else Some ht.

(** The conditions that struct mtev_rest_acl and struct mtev_rest_acl_rule
    have in common, mtev_rest.c:153-186 *)
Record conds := mkconds {
  url : option bytes; cn : option bytes; user : option bytes; authm : option bytes;
  ipacl : Btrie.Model.tree; listener_res : option (list (bytes * bytes)) }.
(** mtev_rest.c:1515-1520, 1542-1547; the trie comes from compile_cidr *)
Definition compile_conds (e : env) (l : attrs) : res conds :=
  match compile_cidr e l with
  | Btrie.Model.Ok t =>
      Done (mkconds (compile_re e l "url") (compile_re e l "cn") (compile_re e l "user") (compile_re e l "auth")
                    t (compile_listener_res e l))
  | _ => Bad
  end.

(** mtev_rest.c:153-171 struct mtev_rest_acl_rule. [skipto] is the object the
    pointer leads to: see [names]. *)
Record acl_rule := mkrule { skipto : option nat; rallow : bool; rconds : conds }.
(** mtev_rest.c:172-186 struct mtev_rest_acl *)
Record acl := mkacl { aallow : bool; aconds : conds; arules : list acl_rule }.

(** !strcmp(tbuff, "allow") with char tbuff[32] (mtev_rest.c:1483,1500,1539) *)
Definition type_allow (l : attrs) : bool :=
  match stringbuf l (bs "type") 32 with Some t => beq t (bs "allow") | None => false end.

(** mtev_rest.c:1529 the hash table names: what is stored under the name of a
    rule is [newacl], the acl the rule is in, here by its number (idx) *)
Definition names := list (bytes * nat).
Fixpoint name_get (n : names) (k : bytes) : option nat :=
  match n with [] => None | (a, v) :: r => if beq a k then Some v else name_get r k end.
(** mtev_hash_store does not replace (mtev_rest.c:1529) *)
Definition name_store (n : names) (k : bytes) (v : nat) : names :=
  match name_get n k with Some _ => n | None => (k, v) :: n end.
(** mtev_rest.c:1525-1532 the names of the rules of an acl, last rule first *)
Fixpoint store_names (n : names) (l : list attrs) (ai : nat) : names :=
  match l with
  | [] => n
  | r :: rest =>
      let n := store_names n rest ai in
      match attr r (bs "name") with Some k => name_store n k ai | None => n end
  end.
(** mtev_rest.c:1523-1561 the rules of an acl; skipto is resolved with the
    names of this and all later acls *)
Fixpoint load_acl_rules (e : env) (n : names) (l : list attrs) : res (list acl_rule) :=
  match l with
  | [] => Done []
  | r :: rest =>
      bind (compile_conds e r) (fun c =>
      bind (load_acl_rules e n rest) (fun rs =>
      Done (mkrule (match attr r (bs "skipto") with Some k => name_get n k | None => None end) (type_allow r) c :: rs)))
  end.
(** mtev_rest.c:1481-1562 the loop over the acls, last one first; the type of
    the acl is read (:1499-1501) and then overwritten by default_allow (:1514) *)
Definition default_allow : bool := false.
Fixpoint load (e : env) (l : list node) (ai : nat) : res (names * list acl) :=
  match l with
  | [] => Done ([], [])
  | a :: rest =>
      bind (load e rest (S ai)) (fun nr =>
      let n := store_names (fst nr) (children a) ai in
      bind (compile_conds e (nattrs a)) (fun c =>
      bind (load_acl_rules e n (children a)) (fun rs =>
      Done (n, mkacl default_allow c rs :: snd nr))))
  end.
(** mtev_rest.c:1467-1566 mtev_http_rest_load_rules: the new global_rest_acls *)
Definition load_rules (e : env) (l : list node) : res (list acl) :=
  bind (load e l 1) (fun nr => Done (snd nr)).

(** The client: user, auth, cn ("" when missing), the URI, the address, the
    configuration of the listener (mtev_rest.c:483-493). The family of the
    address is [None] for one that is neither. *)
Record client := mkclient {
  remote_user : bytes; remote_auth : bytes; remote_cn : bytes; uri_str : bytes;
  remote : option Btrie.Model.family * list N;
  config : list (bytes * bytes) }.

(** a condition by expression: NULL passes (mtev_rest.c:495-514,529-563) *)
Definition re_ok (e : env) (re : option bytes) (subject : bytes) : bool :=
  match re with None => true | Some p => negb (pcre_rc e p subject <=? 0)%Z end.
(** mtev_rest.c:198-217 match_cidr *)
Definition match_cidr (t : Btrie.Model.tree) (r : option Btrie.Model.family * list N) : res bool :=
  let found x := match x with Btrie.Model.Ok (d, _) => Done (negb (N.eqb d 0)) | _ => Bad end in
  match fst r with
  | Some Btrie.Model.V4 => found (Btrie.Model.find_ipv4 t (snd r))
  | Some Btrie.Model.V6 => found (Btrie.Model.find_ipv6 t (snd r))
  | None => Done false
  end.
(** mtev_rest.c:515,564: the trie is looked at when it is not NULL *)
Definition ip_ok (t : Btrie.Model.tree) (r : option Btrie.Model.family * list N) : res bool :=
  match t with Btrie.Model.Nil => Done true | _ => match_cidr t r end.
(** mtev_rest.c:1443-1464 match_listener_res *)
Definition match_listener_res (e : env) (l : option (list (bytes * bytes))) (cfg : list (bytes * bytes)) : bool :=
  match l with
  | None => true
  | Some ht => forallb (fun kv => match attr cfg (fst kv) with
                                  | Some str => negb (pcre_rc e (snd kv) str <=? 0)%Z
                                  | None => false
                                  end) ht
  end.
(** mtev_rest.c:495-525, 529-573 all conditions of an acl or a rule *)
Definition conds_ok (e : env) (q : client) (c : conds) : res bool :=
  if negb (re_ok e (user c) (remote_user q)) then Done false
  else if negb (re_ok e (authm c) (remote_auth q)) then Done false
  else if negb (re_ok e (cn c) (remote_cn q)) then Done false
  else if negb (re_ok e (url c) (uri_str q)) then Done false
  else bind (ip_ok (ipacl c) (remote q)) (fun ok =>
       if ok then Done (match_listener_res e (listener_res c) (config q)) else Done false).

(** The layout of the two structures (LP64): size and alignment of each
    member, mtev_rest.c:153-186; mtev_boolean is an enum, all others are
    pointers. *)
Definition rule_members : list nat := [4; 8; 8; 8; 4; 8; 8; 8; 8; 8; 8; 8; 8; 8; 8; 8; 8].
Definition acl_members : list nat := [4; 4; 8; 8; 8; 8; 8; 8; 8; 8; 8; 8; 8; 8].
(** round up *)
Definition align (n a : nat) : nat := (n + a - 1) / a * a.
(** offset of the last of a list of members *)
Definition end_of (l : list nat) : nat := fold_left (fun o s => align o s + s) l 0.
Definition sizeof_acl : nat := align (end_of acl_members) 8.      (* mtev_rest.c:172-186 *)
Definition offset_parent : nat := end_of rule_members - 8.        (* mtev_rest.c:170 *)
(** reading rule->parent when rule points to an object of that size *)
Definition read_parent (size : nat) : res unit := if Nat.leb (offset_parent + 8) size then Done tt else Bad.

(** mtev_rest.c:526-586 the rules of an acl. A rule with skipto set continues
    with the object skipto points to: [names] holds acls, so the read of
    rule->parent (:580) is one of an object of [sizeof_acl] bytes. Were it in
    bounds, the walk would go on there; what it would do is not modelled. *)
Fixpoint eval_rules (e : env) (q : client) (l : list acl_rule) (fallthru : bool) : res bool :=
  match l with
  | [] => Done fallthru
  | r :: rest =>
      bind (conds_ok e q (rconds r)) (fun ok =>
      if ok then
        match skipto r with
        | Some _ => bind (read_parent sizeof_acl) (fun _ => Done (rallow r))
        | None => Done (rallow r)
        end
      else eval_rules e q rest fallthru)
  end.
(** mtev_rest.c:471-590 mtev_http_rest_client_cert_auth after the rules are
    loaded *)
Fixpoint eval (e : env) (q : client) (l : list acl) : res bool :=
  match l with
  | [] => Done false
  | a :: rest =>
      bind (conds_ok e q (aconds a)) (fun ok =>
      if ok then eval_rules e q (arules a) (aallow a) else eval e q rest)
  end.
Definition client_cert_auth (e : env) (conf : list node) (q : client) : res bool := (* mtev_rest.c:471-590 *)
  bind (load_rules e conf) (eval e q).

(** * Files *)

(** strchr from the end: what follows the last [c] (mtev_rest.c:1333-1343) *)
Fixpoint after_last (c : N) (s : bytes) : option bytes :=
  match s with
  | [] => None
  | x :: r => match after_last c r with
              | Some t => Some t
              | None => if N.eqb x c then Some r else None
              end
  end.
Definition PATH_MAX : nat := 4096. (* limits.h *)
(** last character (mtev_rest.c:1313) *)
Definition last_char (s : bytes) : N := last s 0%N.
(** mtev_rest.c:1311-1316 the file asked for *)
Definition file_name (root index path : bytes) : bytes :=
  let file := firstn (PATH_MAX - 1) (root ++ 47%N :: path) in
  if N.eqb (last_char file) 47 then firstn (PATH_MAX - 1) (file ++ index) else file.
(** rfile[i]; [junk] is what the array holds behind the NUL *)
Definition char_at (s : bytes) (junk : nat -> N) (i : nat) : N :=
  if Nat.ltb i (List.length s) then nth i s 0%N else if Nat.eqb i (List.length s) then 0%N else junk i.
(** mtev_rest.c:1320-1321 is the file inside the document root? *)
Definition inside (root rfile : bytes) (junk : nat -> N) : bool :=
  beq (firstn (List.length root) rfile) root
  && negb (negb (N.eqb (char_at rfile junk (List.length root)) 47)
           && negb (N.eqb (char_at rfile junk (List.length root + 1)) 47)).

(** mtev_rest.c:1333-1360 the content type of a file; [mimes] is
    mime_type_defaults *)
Definition content_type (cfg mimes : list (bytes * bytes)) (rfile : bytes) : res bytes :=
  match after_last 47 rfile with
  | None => Bad                                                   (* slash is NULL: slash+1 is not *)
  | Some name =>
      let look ext :=
        match attr cfg (firstn (PATH_MAX - 1) (bs "mime_type_" ++ ext)) with
        | Some t => t
        | None => match attr mimes ext with Some t => t | None => bs "application/octet-stream" end
        end in
      match after_last 46 name with
      | Some ext => Done (look ext)
      | None => match name with
                | [] => Bad                                       (* dot+1 is behind the NUL *)
                | _ :: ext => Done (look ext)                     (* dot = slash+1, then dot+1 *)
                end
      end
  end.

(** How the file handler answers *)
Inductive file_answer := FNotFound | FDenied | FServe (rfile type : bytes).
(** mtev_rest.c:1286-1386 mtev_rest_simple_file_handler. [realpath] is the
    function of libc, [fs] tells what stat, open and mmap do. *)
Inductive fstat := StatDenied | StatFailed | OpenFailed | Readable.
Definition simple_file_handler (cfg mimes : list (bytes * bytes)) (realpath : bytes -> option bytes)
  (fs : bytes -> fstat) (junk : nat -> N) (pats : list bytes) : res file_answer :=
  match pats, attr cfg (bs "document_root") with
  | [p], Some root =>
      let index := match attr cfg (bs "index_file") with Some i => i | None => bs "index.html" end in
      match realpath (file_name root index p) with
      | None => Done FNotFound
      | Some rfile =>
          if negb (inside root rfile junk) then Done FDenied
          else match fs rfile with
               | StatDenied => Done FDenied
               | StatFailed | OpenFailed => Done FNotFound
               | Readable => bind (content_type cfg mimes rfile) (fun t => Done (FServe rfile t))
               end
      end
  | _, _ => Done FNotFound
  end.
