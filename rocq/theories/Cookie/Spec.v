(** What cookies, forms and host names mean. *)
From Coq Require Import NArith ZArith List Bool String.
From Verif.Url Require Spec.
From Verif.Cookie Require Import Model.
Import ListNotations.
Local Open Scope string_scope.
Local Open Scope list_scope.
Local Open Scope nat_scope.

(** bytes, and C strings *)
Definition octets (l : bytes) : Prop := Forall (fun c => (c < 256)%N) l.
Definition clean (l : bytes) : Prop := ~ In 0%N l.

(** a message authentication code of 32 bytes (SHA-256) *)
Definition mac32 (hmac : bytes -> bytes) : Prop := forall s, List.length (hmac s) = 32 /\ octets (hmac s).

(** parts, each behind its length *)
Inductive parts : list bytes -> bytes -> Prop :=
| parts_nil : parts [] []
| parts_cons p ps t : List.length p < 256 -> parts ps t -> parts (p :: ps) (N.of_nat (List.length p) :: p ++ t).

(** the number decimal digits write *)
Inductive number : bytes -> Z -> Prop :=
| num_one d : (48 <= d <= 57)%N -> number [d] (Z.of_N d - 48)
| num_more l n d : number l n -> (48 <= d <= 57)%N -> number (l ++ [d]) (10 * n + (Z.of_N d - 48)).

(** a Cookie header (RFC 6265 section 4.2.1): pairs with a semicolon and a
    space between them *)
Inductive cookies : list bytes -> bytes -> Prop :=
| cookies_one p : cookies [p] p
| cookies_more p ps t : cookies ps t -> cookies (p :: ps) (p ++ 59%N :: 32%N :: t).
(** a pair: not empty, without the characters that separate *)
Definition pair (p : bytes) : Prop := p <> [] /\ ~ In 32%N p /\ ~ In 59%N p.
(** is the pair of our name? *)
Definition ours (p : bytes) : Prop := exists v, p = bs "mtevauth=" ++ v.

(** what a cookie must hold to be one the server signed *)
Definition bears (hmac : bytes -> bytes) (payload : bytes) (s : bytes) : Prop :=
  exists junk, payload = s ++ N.of_nat (List.length (hmac s)) :: hmac s ++ junk.

(** the text before the first NUL *)
Inductive c_string : bytes -> bytes -> Prop :=
| c_whole l : clean l -> c_string l l
| c_cut a b : clean a -> c_string (a ++ 0%N :: b) a.

(** Form data as browsers send it (application/x-www-form-urlencoded): letters,
    digits and * - . _ as they are, a space as +, the rest as % and digits *)
Definition form_safe (c : N) : Prop :=
  (48 <= c <= 57 \/ 65 <= c <= 90 \/ 97 <= c <= 122 \/ c = 42 \/ c = 45 \/ c = 46 \/ c = 95)%N.
Inductive form_encodes : bytes -> bytes -> Prop :=
| form_nil : form_encodes [] []
| form_self c l t : form_safe c -> form_encodes l t -> form_encodes (c :: l) (c :: t)
| form_plus l t : form_encodes l t -> form_encodes (32%N :: l) (43%N :: t)
| form_hex c l t : ~ form_safe c -> c <> 32%N -> (c < 256)%N -> form_encodes l t ->
    form_encodes (c :: l) (37%N :: Url.Spec.updigit (c / 16) :: Url.Spec.updigit (c mod 16) :: t).
(** names and values, the names being plain words, joined by ampersands *)
Inductive form_body : list (bytes * bytes) -> bytes -> Prop :=
| body_one k v w : form_encodes v w -> form_body [(k, v)] (k ++ 61%N :: w)
| body_more k v w fs t : form_encodes v w -> form_body fs t ->
    form_body ((k, v) :: fs) (k ++ 61%N :: w ++ 38%N :: t).
(** the login form filled in *)
Definition login_form (u p t : bytes) : list (bytes * bytes) :=
  [(bs "whereto", t); (bs "username", u); (bs "password", p)].
(** what is received of a value *)
Inductive received : bytes -> bytes -> Prop :=
| recv_ok v : ~ In 32%N v -> ~ In 42%N v -> received v v
| recv_lost v : In 32%N v \/ In 42%N v -> received v [].

(** a domain the host is in: what follows one of the dots of its name *)
Definition within_domain (host d : bytes) : Prop := exists label, host = label ++ 46%N :: d.
(** a Host header (RFC 7230 section 5.4): name, or name and port *)
Inductive host_header : bytes -> bytes -> Prop :=
| host_plain h : ~ In 58%N h -> host_header h h
| host_port h p : ~ In 58%N h -> Forall (fun c => (48 <= c <= 57)%N) p -> host_header h (h ++ 58%N :: p).
(** a letter of a name *)
Definition letter (c : N) : Prop := (65 <= c <= 90 \/ 97 <= c <= 122)%N.

(** the page asked for, as a path and a query *)
Definition page_of (path : bytes) (query : option bytes) : bytes :=
  match query with Some q => path ++ 63%N :: q | None => path end.
