(** Model of src/modules/http_hmac_cookie.c: authentication by a signed cookie,
    and the login page. URL and HTML encoding are those of the Url module
    (src/utils/mtev_url.c). *)
From Coq Require Import NArith ZArith List Bool Ascii String.
From Verif.Url Require Model.
Import ListNotations.
Local Open Scope nat_scope.

Definition bytes := list N.
(** A C string literal. *)
Fixpoint bs (s : string) : bytes :=
  match s with EmptyString => [] | String a r => N_of_ascii a :: bs r end.

(** The outcome of a function: a value, or an access outside of a buffer. *)
Inductive res (A : Type) := Done (a : A) | Bad.
Arguments Done {A}. Arguments Bad {A}.
(** sequencing *)
Definition bind {A B} (r : res A) (f : A -> res B) : res B :=
  match r with Done a => f a | Bad => Bad end.

(** memcmp(..) == 0, strcmp(..) == 0 *)
Fixpoint beq (a b : bytes) : bool :=
  match a, b with
  | [], [] => true
  | x :: a', y :: b' => N.eqb x y && beq a' b'
  | _, _ => false
  end.
(** !strncmp(l, prefix, strlen(prefix)) (http_hmac_cookie.c:241,509) *)
Definition starts (prefix l : bytes) : bool := beq prefix (firstn (List.length prefix) l).
(** strchr and strrchr: an offset (http_hmac_cookie.c:388,390,393,426) *)
Fixpoint strchr (c : N) (l : bytes) : option nat :=
  match l with
  | [] => None
  | x :: r => if N.eqb x c then Some 0 else option_map S (strchr c r)
  end.
Fixpoint strrchr (c : N) (l : bytes) : option nat :=
  match l with
  | [] => None
  | x :: r => match strrchr c r with
              | Some k => Some (S k)
              | None => if N.eqb x c then Some 0 else None
              end
  end.
(** bytes read as a C string *)
Fixpoint cstr (l : bytes) : bytes :=
  match l with
  | [] => []
  | x :: r => if N.eqb x 0 then [] else x :: cstr r
  end.
(** strtok_r with the delimiters [d]: the pieces that are not empty; [acc] is
    the piece so far (http_hmac_cookie.c:240,425) *)
Fixpoint strtok (d : bytes) (l acc : bytes) : list bytes :=
  match l with
  | [] => match acc with [] => [] | _ => [acc] end
  | x :: r => if existsb (N.eqb x) d
              then match acc with [] => strtok d r [] | _ => acc :: strtok d r [] end
              else strtok d r (acc ++ [x])
  end.

(** Text in the memory of Url.Model *)
Definition load (l : bytes) : Url.Model.mem :=
  fun x => if (x <? 0)%Z then 0%N else nth (Z.to_nat x) l 0%N.
Fixpoint read (m : Url.Model.mem) (a : Z) (n : nat) : bytes :=
  match n with O => [] | S k => m a :: read m (a + 1)%Z k end.
(** mtev_url_decode (mtev_url.c:69-92) of a string at 0 to [dest]; the empty
    text where it returns 0 *)
Definition url_decode (l : bytes) (dest dest_len : Z) : bytes :=
  let r := Url.Model.url_decode (load l) 0 (List.length l) dest dest_len in
  match Url.Model.ret r with
  | Some k => read (Url.Model.rmem r) dest (Z.to_nat k)
  | None => []
  end.
(** mtev_url_encode (mtev_url.c:99-122) in place, the destination having
    [dest_len] bytes; [None] where it returns 0 *)
Definition url_encode (l : bytes) (dest_len : Z) : option bytes :=
  let r := Url.Model.url_encode (load l) 0 (List.length l) 0 dest_len in
  match Url.Model.ret r with
  | Some k => if (k =? 0)%Z then None else Some (read (Url.Model.rmem r) 0 (Z.to_nat k))
  | None => None
  end.

(** strtoull(s, NULL, 10) (http_hmac_cookie.c:283), and strtoul (:502) *)
Definition isspace (c : N) : bool := (N.leb 9 c && N.leb c 13) || N.eqb c 32.
Fixpoint skip_space (l : bytes) : bytes :=
  match l with
  | [] => []
  | x :: r => if isspace x then skip_space r else l
  end.
Fixpoint digits (l : bytes) (acc : Z) : Z :=
  match l with
  | [] => acc
  | x :: r => if (N.leb 48 x && N.leb x 57)%N then digits r (10 * acc + Z.of_N (x - 48)) else acc
  end.
Definition ulong (neg : bool) (x : Z) : Z :=
  if (2 ^ 64 - 1 <? x)%Z then (2 ^ 64 - 1)%Z else if neg then ((- x) mod 2 ^ 64)%Z else x.
Definition strtoull (l : bytes) : Z :=
  match skip_space l with
  | 45%N :: r => ulong true (digits r 0)
  | 43%N :: r => ulong false (digits r 0)
  | r => ulong false (digits r 0)
  end.
(** printf of %zu and %u (http_hmac_cookie.c:338,380); [fuel] bounds the number
    of digits *)
Fixpoint decimal (fuel : nat) (n : N) : bytes :=
  match fuel with
  | O => []
  | S fuel => (if (n <? 10)%N then [] else decimal fuel (n / 10)) ++ [48 + n mod 10]%N
  end.
Definition print (n : N) : bytes := decimal 20 n.

(** * The signature *)

(** http_hmac_cookie.c:117-140 signit: the HMAC, [None] for -1. The HMAC itself
    (OpenSSL, md and hmac_key) is the parameter. *)
Definition signit (hmac : bytes -> bytes) (buf : bytes) (outlen : nat) : option bytes :=
  let s := hmac buf in
  if (256 <? List.length s) || (outlen <? List.length s) then None else Some s.

(** http_hmac_cookie.c:49-50 *)
Definition COOKIE_HEADER : bytes := bs "hmac_cookie".
Definition NONCE_LEN : nat := 8.

(** * The cookie of a request *)

(** http_hmac_cookie.c:251-264 ADVPART: the part and what comes after it *)
Definition advpart (l : bytes) : option (bytes * bytes) :=
  match l with
  | [] => None
  | n :: r => if List.length r <? N.to_nat n then None
              else Some (firstn (N.to_nat n) r, skipn (N.to_nat n) r)
  end.
(** http_hmac_cookie.c:272-282 memcpy to an array of [n] bytes, and a NUL *)
Definition copy (n : nat) (part : bytes) : res bytes :=
  if n <=? List.length part then Bad else Done (cstr part).
(** http_hmac_cookie.c:265-296 the decoded cookie: user and auth if it holds *)
Definition check (hmac : bytes -> bytes) (now : Z) (payload : bytes) : res (option (bytes * bytes)) :=
  match advpart payload with
  | None => Done None
  | Some (h, r) =>
      if negb (beq h COOKIE_HEADER) then Done None
      else match advpart r with
      | None => Done None
      | Some (_, r) =>
      match advpart r with
      | None => Done None
      | Some (u, r) =>
      bind (copy 257 u) (fun user =>
      match advpart r with
      | None => Done None
      | Some (a, r) =>
      bind (copy 256 a) (fun auth =>
      match advpart r with
      | None => Done None
      | Some (t, r) =>
      bind (copy 257 t) (fun timestr =>
      let expiry := strtoull timestr in
      if (0 <? now)%Z && (now <? expiry)%Z then
        let slen := signit hmac (firstn (List.length payload - List.length r) payload) 256 in
        match advpart r with
        | None => Done None
        | Some (s, _) =>
            match slen with
            | Some sig => if (List.length sig =? List.length s) && beq sig s
                          then Done (Some (user, auth)) else Done None
            | None => Done None
            end
        end
      else Done None)
      end)
      end)
      end
      end
  end.
(** http_hmac_cookie.c:243-250 a piece after mtevauth= *)
Definition decode_part (p : bytes) : bytes :=
  url_decode p (Z.of_nat (List.length p) + 1) (Url.Model.url_max_decode_len (Z.of_nat (List.length p))).
(** http_hmac_cookie.c:240-302 the first piece that is our cookie decides *)
Fixpoint pieces (hmac : bytes -> bytes) (now : Z) (l : list bytes) : res (option (bytes * bytes)) :=
  match l with
  | [] => Done None
  | p :: r => if starts (bs "mtevauth=") p then check hmac now (decode_part (skipn 9 p))
              else pieces hmac now r
  end.
(** http_hmac_cookie.c:231-306 http_hmac_http_request_complete: what
    mtev_http_request_set_auth is called with *)
Definition request_complete (hmac : bytes -> bytes) (now : Z) (cookie : option bytes) : res (option (bytes * bytes)) :=
  match cookie with
  | None => Done None
  | Some c => pieces hmac now (strtok (bs " ;") c [])
  end.

(** * The cookie of a response *)

(** http_hmac_cookie.c:343-359 one part: its length as uint8_t and as many bytes *)
Definition part (l : bytes) : bytes :=
  let n := List.length l mod 256 in N.of_nat n :: firstn n l.
(** http_hmac_cookie.c:343-359 what is signed *)
Definition signed (nonce user auth : bytes) (expires : N) : bytes :=
  part COOKIE_HEADER ++ part nonce ++ part user ++ part auth ++ part (print expires).
(** mtev_dyn_buffer.h:54 *)
Definition static_size : nat := Z.to_nat 4096.
(** http_hmac_cookie.c:361-379: the cookie, encoded; [None] when there is no
    signature. [delayed_len] points into the buffer and must not be used once
    mtev_dyn_buffer_ensure has moved it. *)
Definition cookie_text (hmac : bytes -> bytes) (s : bytes) : res (option bytes) :=
  let used := List.length s + 1 in
  if static_size <? used + 256 then Bad
  else match signit hmac s 256 with
       | None => Done None
       | Some sig =>
           let c := s ++ N.of_nat (List.length sig mod 256) :: sig in
           let need := (Z.of_nat (List.length c) + Url.Model.url_encode_len (Z.of_nat (List.length c)))%Z in
           let size := if (Z.of_nat static_size <? need)%Z then (2 * need)%Z else Z.of_nat static_size in
           Done (url_encode c size)
       end.
(** http_hmac_cookie.c:386-397 the domain from the Host header *)
Definition isalpha (c : N) : bool := (N.leb 65 c && N.leb c 90) || (N.leb 97 c && N.leb c 122).
Definition domain_of (host : bytes) : option bytes :=
  match strchr 46 host with
  | None => None
  | Some k =>
      let h := skipn k host in
      let hlast := match strrchr 58 h with Some j => j | None => List.length h end - 1 in
      if (2 <? List.length h) && match strchr 46 (skipn 1 h) with Some _ => true | None => false end
         && isalpha (nth hlast h 0%N)
      then Some (firstn hlast (skipn 1 h)) else None
  end.
(** http_hmac_cookie.c:383-398 *)
Definition domain_text (domain host : option bytes) : bytes :=
  match domain with
  | Some d => bs "; Domain=" ++ d
  | None => match host with
            | Some h => match domain_of h with Some d => bs "; Domain=" ++ d | None => [] end
            | None => []
            end
  end.
(** http_hmac_cookie.c:329-405 http_hmac_http_refresh_cookie: the Set-Cookie
    header *)
Definition refresh (hmac : bytes -> bytes) (now max_age : N) (domain host : option bytes) (nonce : bytes)
                   (who : option (bytes * bytes)) : res (option bytes) :=
  match who with
  | None => Done None
  | Some (user, auth) =>
      bind (cookie_text hmac (signed nonce user auth (now + max_age))) (fun c =>
      match c with
      | None => Done None
      | Some c => Done (Some (bs "mtevauth=" ++ c ++ bs "; Max-Age=" ++ print max_age ++ domain_text domain host))
      end)
  end.

(** * Login *)

(** user, pass and to of http_hmac_cookie.c:414 *)
Record form := mkform { user : option bytes; pass : option bytes; to : option bytes }.
(** http_hmac_cookie.c:428-435: decoding in place *)
Definition decode_here (l : bytes) : bytes := url_decode l 0 (Z.of_nat (List.length l) + 1).
(** http_hmac_cookie.c:426-440 one piece of the form *)
Definition form_field (f : form) (kvp : bytes) : form :=
  let '(k, v) := match strchr 61 kvp with
                 | Some i => (firstn i kvp, Some (skipn (S i) kvp))
                 | None => (kvp, None)
                 end in
  match decode_here k with
  | [] => f
  | d =>
      let name := cstr d in
      let val := match v with Some v => Some (cstr (decode_here v)) | None => None end in
      if beq name (bs "username") then mkform val (pass f) (to f)
      else if beq name (bs "password") then mkform (user f) val (to f)
      else if beq name (bs "whereto") then mkform (user f) (pass f) val
      else f
  end.
(** http_hmac_cookie.c:420-442 the body of the request *)
Definition read_form (body : bytes) : form :=
  fold_left form_field (strtok (bs "&") (cstr body) []) (mkform None None None).

(** What http_auth_hook_invoke returns; the hook may call
    mtev_http_request_set_auth and set the error. *)
Inductive verdict := HookDone | HookAbort | HookContinue.
Record hook_result := mkhook { what : verdict; sets : option (bytes * bytes); message : option bytes }.
Definition table := list (bytes * bytes).
Fixpoint get (t : table) (k : bytes) : option bytes :=
  match t with
  | [] => None
  | (k', v) :: r => if beq k' k then Some v else get r k
  end.
(** http_hmac_cookie.c:307-327 do_auth: who is set then, and the error *)
Definition do_auth (hook : bytes -> bytes -> hook_result) (testusers : table) (who : option (bytes * bytes))
                   (u p : bytes) : option (bytes * bytes) * option bytes :=
  let h := hook u p in
  let who := match sets h with Some x => Some x | None => who end in
  match what h with
  | HookDone => (who, message h)
  | HookAbort => (who, match message h with None => Some (bs "authentication error") | e => e end)
  | HookContinue =>
      match get testusers u with
      | Some pw => if beq pw p then (Some (u, bs "hmac_cookie_test"), message h) else (who, message h)
      | None => (who, message h)
      end
  end.
(** http_hmac_cookie.c:464-470 the text of the hidden field *)
Definition hidden (to : bytes) : bytes :=
  let len := Url.Model.html_encode_len (Z.of_nat (List.length to)) in
  let r := Url.Model.html_encode to len in
  match Url.Model.hret r with
  | Some (S k) => firstn (S k) (Url.Model.hstores r)
  | _ => firstn (Z.to_nat len - 1) (bs "/")
  end.
Inductive answer :=
| Redirect (location : bytes)
| Page (whereto : bytes) (error : bytes).
(** http_hmac_cookie.c:407-478 http_login: who is set then, and the answer;
    [body] is the uploaded form, [query] the parameter whereto of the URI *)
Definition login (hook : bytes -> bytes -> hook_result) (testusers : table) (who : option (bytes * bytes))
                 (body : bytes) (query : option bytes) : option (bytes * bytes) * answer :=
  let f := match body with [] => mkform None None None | _ => read_form body end in
  let page w error :=
    (w, Page (hidden (match to f with Some t => t | None => match query with Some t => t | None => bs "/" end end)) error) in
  match user f, pass f with
  | Some u, Some p =>
      let (w, error) := do_auth hook testusers who u p in
      match w with
      | Some _ => (w, Redirect (match to f with Some (c :: t) => c :: t | _ => bs "/" end))
      | None => page w (match error with Some e => e | None => bs "authentication failed" end)
      end
  | _, _ => page who []
  end.
(** http_hmac_cookie.c:142-161 build_login_buff: where a request that is not
    authenticated is sent; [None]: no text *)
Definition login_buff (uri : bytes) (qs : option bytes) : option bytes :=
  let l := match qs with Some q => uri ++ 63%N :: q | None => uri end in
  match l with
  | [] => Some (bs "/login?whereto=")
  | _ => match url_encode l (Url.Model.url_encode_len (Z.of_nat (List.length l))) with
         | Some t => Some (bs "/login?whereto=" ++ t)
         | None => None
         end
  end.
(** http_hmac_cookie.c:206-230 http_hmac_cookie_auth_denied *)
Inductive denial := LoginBroken | LoginRedirect | ResetMessage.
Definition auth_denied (who : option (bytes * bytes)) (uri : bytes) : denial :=
  if beq uri (bs "/login") || starts (bs "/login?") uri then LoginBroken
  else match who with None => LoginRedirect | Some _ => ResetMessage end.

(** * Configuration *)

(** http_hmac_cookie.c:53-58 the variables of the module; [key] is [None] when
    it will be random *)
Record conf := mkconf { key : option bytes; max_age : N; domain : option bytes; users : table }.
Definition conf0 : conf := mkconf None 86400 None [].
Fixpoint set (t : table) (k v : bytes) : table :=
  match t with
  | [] => [(k, v)]
  | (k', v') :: r => if beq k' k then (k', v) :: r else (k', v') :: set r k v
  end.
(** http_hmac_cookie.c:485-512 one setting; [b64] is mtev_b64_decode *)
Definition setting (b64 : bytes -> bytes) (c : conf) (kv : bytes * bytes) : option conf :=
  let (k, v) := kv in
  if beq k (bs "key") then
    let d := b64 v in
    if List.length d =? 32 then Some (mkconf (Some d) (max_age c) (domain c) (users c)) else None
  else if beq k (bs "max_age") then Some (mkconf (key c) (Z.to_N (strtoull v mod 2 ^ 32)) (domain c) (users c))
  else if beq k (bs "max_age") then Some (mkconf (key c) (max_age c) (Some v) (users c))
  else if starts (bs "user_") k then Some (mkconf (key c) (max_age c) (domain c) (set (users c) (skipn 5 k) v))
  else Some c.
(** http_hmac_cookie.c:479-521 http_hmac_cookie_config; [None] for -1 *)
Fixpoint config (b64 : bytes -> bytes) (c : conf) (l : table) : option conf :=
  match l with
  | [] => Some c
  | kv :: r => match setting b64 c kv with Some c => config b64 c r | None => None end
  end.
