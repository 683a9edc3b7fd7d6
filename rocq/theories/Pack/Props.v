(** string.pack and string.unpack. *)
From Coq Require Import ZArith NArith List Bool Ascii String Lia ZifyBool ZifyNat ZifyN.
From Verif.Pack Require Import Model Spec Proofs Proofs2 Proofs3.
Import ListNotations.
Local Open Scope Z_scope.

(** A small machine for the examples: the numbers -65535 to 65535. *)
Definition toy : floats := {|
  dbl := bool * ascii * ascii;
  trunc x := Some ((if fst (fst x) then -1 else 1) * (256 * Z.of_N (N_of_ascii (snd (fst x))) + Z.of_N (N_of_ascii (snd x))));
  of_int z := (z <? 0, ascii_of_N (Z.to_N (Z.abs z / 256)), ascii_of_N (Z.to_N (Z.abs z mod 256)));
  dput x := [if fst (fst x) then 1%N else 0%N; N_of_ascii (snd (fst x)); N_of_ascii (snd x); 0; 0; 0; 0; 0]%N;
  dget b := ((nth 0 b 0 =? 1)%N, ascii_of_N (nth 1 b 0%N), ascii_of_N (nth 2 b 0%N));
  fput x := [if fst (fst x) then 1%N else 0%N; N_of_ascii (snd (fst x)); N_of_ascii (snd x); 0%N];
  fget b := ((nth 0 b 0 =? 1)%N, ascii_of_N (nth 1 b 0%N), ascii_of_N (nth 2 b 0%N))
|}.
Lemma toy_machine : machine toy.
Proof.
  split; intros [[s a] b]; [|reflexivity]. split; [reflexivity|]. cbn. rewrite !ascii_N_embedding. now destruct s.
Qed.
Definition num (z : Z) : val toy := Num (of_int toy z).
Definition str (s : string) : val toy := Str (bs s).
Ltac fmt := repeat first [apply f_nil | apply f_plain; [discriminate|first [exact I|cbn; unfold a_digit; lia]|]
  | eapply (f_count _ [_]); [discriminate|apply d_one; unfold a_digit; cbn; lia|first [exact I|cbn; unfold a_digit; lia]|]].
Ltac one_int := eapply e_int; [constructor|cbn; reflexivity|cbn; lia|reflexivity|split; [repeat constructor|reflexivity]].

(** ** C141: what is packed is unpacked *)
(** For strings of every length that the length's bytes can hold. *)
Definition C141_full : Prop := forall F little c n m s, machine F -> str_kind c n m ->
  Z.of_nat (List.length s) < 2 ^ (8 * Z.of_nat n) -> Z.of_nat (List.length s) + 4 <= 2 ^ 31 - 1 ->
  exists b, pack F little [c] [Str s] = Ok b /\ unpack F little b [c] 1 = Ok (Z.of_nat (List.length b) + 1, [Str s]).
Theorem C141_round_trip_partial : forall F little t l vs ws b extra pre post, machine F ->
  format t l -> small_counts (2 ^ 31 - 1) l -> Forall (fun i => fst i <> ch "A") l ->
  packs F (negb little) (negb little) (spelt l) vs ws b -> Z.of_nat (List.length (pre ++ b)) <= 2 ^ 31 - 1 ->
  pack F little t (vs ++ extra) = Ok b /\
  unpack F little (pre ++ b ++ post) t (Z.of_nat (List.length pre) + 1) = Ok (Z.of_nat (List.length (pre ++ b)) + 1, ws).
Proof.
  intros F little t l vs ws b extra pre post M H S NA P LM. split.
  - now apply (pack_ok F little t l vs ws).
  - now apply (unpack_ok F little t l vs).
Qed.
Example C141_round_trip_partial_ex : machine toy /\
  (exists l, format (bs "<h>H2 p,z") l /\ small_counts (2 ^ 31 - 1) l /\ Forall (fun i => fst i <> ch "A") l /\
   packs toy false false (spelt l) [num (-2); num 258; num 3; str "ab"; str "xyz"] [num (-2); num 258; num 3; str "ab"; str "xyz"]
     ([254; 255; 1; 2; 0; 3; 2; 97; 98; 120; 121; 122; 0]%N)) /\
  pack toy true (bs "<h>H2 p,z") [num (-2); num 258; num 3; str "ab"; str "xyz"] = Ok [254; 255; 1; 2; 0; 3; 2; 97; 98; 120; 121; 122; 0]%N.
Proof.
  split; [exact toy_machine|]. split; [|reflexivity].
  eexists. split; [cbn; fmt|]. split; [repeat constructor; cbn; lia|]. split; [repeat constructor; discriminate|].
  cbn [spelt flat_map times fst snd app repeat Z.to_nat Pos.to_nat Pos.iter_op Nat.add].
  change [254; 255; 1; 2; 0; 3; 2; 97; 98; 120; 121; 122; 0]%N
    with ([254; 255] ++ [1; 2] ++ [0; 3] ++ ([2] ++ bs "ab") ++ ((bs "xyz" ++ [0]) ++ []))%N.
  apply p_little. apply (p_item toy false false (ch "h")); [one_int|]. apply p_big.
  apply (p_item toy false true (ch "H")); [one_int|]. apply (p_item toy false true (ch "H")); [one_int|].
  apply p_blank; [now left|]. apply (p_item toy false true (ch "p")).
  { eapply e_str; [constructor|cbn; lia|reflexivity|split; [repeat constructor|reflexivity]]. }
  apply p_blank; [now right|]. apply (p_item toy false true (ch "z")).
  { apply e_zstr. cbn. lia. }
  apply p_nil.
Qed.
(** A string of 32768 to 65535 bytes packed by P cannot be unpacked. *)
Theorem C141_word : forall F little s, 32768 <= Z.of_nat (List.length s) < 65536 ->
  exists b, pack F little (bs "P") [Str s] = Ok b /\ unpack F little b (bs "P") 1 = Bad.
Proof.
  intros F little s H.
  set (b := put_int little 2 (Z.of_nat (List.length s))).
  exists (b ++ s). split.
  - unfold pack. change (items (bs "P")) with [(OP_WSTRING, @None Z)]. cbn [pack_items].
    change (INT_MAX <? count None) with false. change (is_endian OP_WSTRING) with false. cbv iota.
    change (Z.to_nat (count None)) with 1%nat. cbn [pack_times].
    change (pack_one F little false OP_WSTRING [Str s]) with (Ok (b ++ s, @nil (val F))). cbn [bind fst snd]. now rewrite !app_nil_r.
  - unfold unpack. change (items (bs "P")) with [(OP_WSTRING, @None Z)]. cbn [unpack_items].
    change (INT_MAX <? count None) with false. change (is_endian OP_WSTRING) with false. change (OP_WSTRING =? OP_STRING)%N with false. cbv iota.
    change (Z.to_nat (count None)) with 1%nat. cbn [unpack_times].
    assert (L : List.length b = 2%nat) by (unfold b, put_int; destruct little; rewrite ?rev_length; apply le_length).
    pose proof (negative F little (negb little) false OP_WSTRING 2 b (Z.of_nat (List.length s)) [] s) as NG. cbn [app List.length] in NG.
    change (1 - 1) with (Z.of_nat 0). rewrite NG; [reflexivity| |now left|exact L| |cbn; lia|rewrite L; cbn; lia].
    + unfold swaps. now destruct little.
    + apply in_order_iff. rewrite L. split.
      * unfold b, put_int. destruct little; [|apply rev_octets]; apply le_octets.
      * split; [cbn; lia|]. unfold b, put_int, ordered. now destruct little.
Qed.
Example C141_word_ex : 32768 <= Z.of_nat (List.length (repeat 0%N (Z.to_nat 40000))) < 65536.
Proof. rewrite repeat_length. lia. Qed.
(** One of 256 bytes or more packed by p loses all but as many as its length modulo 256. *)
Theorem C141_byte : forall F little s, Z.of_nat (List.length s) <= 2 ^ 31 - 2 ->
  exists b, pack F little (bs "p") [Str s] = Ok b /\
  unpack F little b (bs "p") 1 = Ok (Z.of_nat (List.length s) mod 256 + 2, [Str (firstn (List.length s mod 256) s)]).
Proof.
  intros F little s LM.
  set (r := Z.of_nat (List.length s) mod 256).
  assert (R : 0 <= r < 256) by (apply Z.mod_pos_bound; lia).
  exists (Z.to_N r :: s). split.
  - unfold pack. change (items (bs "p")) with [(OP_BSTRING, @None Z)]. cbn [pack_items].
    change (INT_MAX <? count None) with false. change (is_endian OP_BSTRING) with false. cbv iota.
    change (Z.to_nat (count None)) with 1%nat. cbn [pack_times].
    assert (P1 : pack_one F little false OP_BSTRING [Str s] = Ok (Z.to_N r :: s, @nil (val F))) by (now destruct little).
    rewrite P1. cbn [bind fst snd]. now rewrite !app_nil_r.
  - unfold unpack. change (items (bs "p")) with [(OP_BSTRING, @None Z)]. cbn [unpack_items].
    change (INT_MAX <? count None) with false. change (is_endian OP_BSTRING) with false. change (OP_BSTRING =? OP_STRING)%N with false. cbv iota.
    change (Z.to_nat (count None)) with 1%nat. cbn [unpack_times]. change (1 - 1) with 0.
    unfold unpack_one. change (OP_BSTRING =? OP_ZSTRING)%N with false. change (unpack_len_code OP_BSTRING) with (Some (false, 1%nat)). cbv iota.
    change (Z.of_nat 1) with 1. cbn [List.length]. replace (Z.of_nat (S (List.length s)) <? 0 + 1) with false by lia.
    rewrite (slice_ok little) by (clear; cbn [Datatypes.length]; lia). change (Z.to_nat 0) with 0%nat. change (Z.to_nat 1) with 1%nat. cbn [skipn firstn bind].
    assert (G : get_int little false (doswap false [Z.to_N r]) = r) by (unfold get_int, doswap; destruct little; cbn -[Z.of_N Z.to_N]; lia).
    rewrite G. assert (RL : r <= Z.of_nat (List.length s)) by (apply Z.mod_le; lia).
    unfold INT_MAX. replace (2 ^ 31 - 1 <? 0 + 1 + r) with false by lia. replace (Z.of_nat (S (List.length s)) <? 0 + 1 + r) with false by lia.
    rewrite (slice_ok little) by (cbn [List.length]; lia). change (Z.to_nat (0 + 1)) with 1%nat. cbn [skipn bind fst snd app].
    replace (Z.to_nat r) with (List.length s mod 256)%nat.
    + f_equal. f_equal. lia.
    + unfold r. rewrite <- (Nat2Z.inj_mod _ 256). now rewrite Nat2Z.id.
Qed.
Example C141_byte_ex : exists b, pack toy true (bs "p") [Str (repeat 7%N 258)] = Ok b /\ unpack toy true b (bs "p") 1 = Ok (4, [Str [7; 7]%N]).
Proof. eexists. split; [vm_compute; reflexivity|]. vm_compute. reflexivity. Qed.
Theorem C141_refuted : ~ C141_full.
Proof.
  intro H. set (s := repeat 0%N (Z.to_nat 40000)). assert (L : Z.of_nat (List.length s) = 40000) by (unfold s; rewrite repeat_length; lia).
  destruct (H toy true (ch "P") 2%nat 32768 s toy_machine) as (b & P & U).
  - constructor.
  - rewrite L. cbn. lia.
  - rewrite L. lia.
  - destruct (C141_word toy true s ltac:(lia)) as (b' & P' & U'). change (bs "P") with [ch "P"] in *.
    rewrite P in P'. injection P' as <-. rewrite U in U'. discriminate U'.
Qed.
Example C141_refuted_ex : str_kind (ch "P") 2 32768 /\ Z.of_nat (List.length (repeat 0%N (Z.to_nat 40000))) < 2 ^ (8 * Z.of_nat 2).
Proof. split; [constructor|]. rewrite repeat_length. cbn. lia. Qed.

(** ** C142: unpacking any data stays in the string *)
Definition C142_full : Prop := forall F little s t init, machine F -> octets s -> Z.of_nat (List.length s) < 2 ^ 30 -> 1 <= init <= 2 ^ 30 ->
  Forall (fun c => In c letters) t -> unpack F little s t init <> Bad.
Theorem C142_safe_partial : forall F little s t l M init, octets s -> format t l -> small_counts M l -> 255 <= M ->
  Forall (fun i => fst i <> ch "P" /\ fst i <> ch "a") l ->
  1 <= init -> init + M <= 2 ^ 31 - 1 -> Z.of_nat (List.length s) + 1 + M <= 2 ^ 31 - 1 ->
  unpack F little s t init <> Bad.
Proof. intros F little s t l M init O H S M2 T I1 I2 LM. now apply (unpack_safe F little s t l M). Qed.
Example C142_safe_partial_ex : (exists l, format (bs "A4zpb9") l /\ small_counts 255 l /\ Forall (fun i => fst i <> ch "P" /\ fst i <> ch "a") l) /\
  unpack toy true (bs "abcdxy") (bs "A4zpb9") 1 = Ok (8, [str "abcd"; str "xy"]).
Proof.
  split; [|reflexivity]. eexists. split; [cbn; fmt|]. split; [repeat constructor; cbn; lia|]. repeat constructor; discriminate.
Qed.
(** With P and a it leaves it exactly for a length whose first bit is set: an attacker's choice. *)
Theorem C142_negative : forall F little big c n b z pre post, (c = ch "P" /\ n = 2%nat \/ c = ch "a" /\ n = 4%nat) ->
  List.length b = n -> in_order big b z -> Z.of_nat (List.length (pre ++ b)) <= 2 ^ 31 - 1 ->
  2 ^ (8 * Z.of_nat n - 1) <= z ->
  unpack F little (pre ++ b ++ post) [if big then ch ">" else ch "<"; c] (Z.of_nat (List.length pre) + 1) = Bad.
Proof.
  intros F little big c n b z pre post C L O LM N. unfold unpack.
  assert (IT : items [if big then ch ">" else ch "<"; c] = [(if big then ch ">" else ch "<", None); (c, None)]) by (destruct big, C as [[-> _]|[-> _]]; reflexivity).
  rewrite IT. replace (Z.of_nat (List.length pre) + 1 - 1) with (Z.of_nat (List.length pre)) by lia.
  assert (ST : unpack_items F little (pre ++ b ++ post) false [(if big then ch ">" else ch "<", None); (c, None)] (Z.of_nat (List.length pre)) =
    unpack_items F little (pre ++ b ++ post) (doendian little (if big then ch ">" else ch "<")) [(c, None)] (Z.of_nat (List.length pre)))
    by (destruct big; reflexivity).
  rewrite ST. cbn [unpack_items]. change (INT_MAX <? count None) with false. cbv iota.
  replace (is_endian c) with false by (destruct C as [[-> _]|[-> _]]; reflexivity).
  replace (c =? OP_STRING)%N with false by (destruct C as [[-> _]|[-> _]]; reflexivity).
  change (Z.to_nat (count None)) with 1%nat. cbn [unpack_times].
  rewrite (negative F little big (doendian little (if big then ch ">" else ch "<")) c n b z pre post); auto.
  unfold swaps. now destruct little, big.
Qed.
Example C142_negative_ex : in_order true [128; 0]%N 32768 /\ unpack toy true [128; 0; 65]%N (bs ">P") 1 = Bad.
Proof. split; [split; [repeat constructor|reflexivity]|reflexivity]. Qed.
Theorem C142_refuted : ~ C142_full.
Proof.
  intro H. apply (H toy true [128; 0; 65]%N (bs ">P") 1 toy_machine); try (cbn; lia).
  - repeat constructor.
  - repeat constructor; cbn; tauto.
  - reflexivity.
Qed.
Example C142_refuted_ex : unpack toy true [255; 255; 255; 255]%N (bs "a") 1 = Bad /\ unpack toy true (bs "abc") (bs "b") 0 = Bad.
Proof. split; reflexivity. Qed.

(** ** C143: data that is not all there *)
Theorem C143_cut : forall F little t l cs vs ws b c v w b' more k, machine F ->
  format t l -> small_counts (2 ^ 31 - 1) l -> Forall (fun i => fst i <> ch "A") l ->
  spelt l = cs ++ c :: more -> packs F (negb little) (negb little) cs vs ws b ->
  encodes F (negb little) (order_after (negb little) (negb little) cs) c v w b' -> c <> ch "z" ->
  (k < List.length b')%nat -> Z.of_nat (List.length (b ++ b')) <= 2 ^ 31 - 1 ->
  unpack F little (b ++ firstn k b') t 1 = Ok (Z.of_nat (List.length b) + 1, ws).
Proof. intros F little t l cs vs ws b c v w b' more k M H S NA E P EN NZ K LM. now apply (unpack_cut F little t l cs vs ws b c v w b' more k). Qed.
Example C143_cut_ex : unpack toy true ([1; 2] ++ firstn 3 ([0; 4] ++ bs "wxyz"))%N (bs ">HP") 1 = Ok (3, [num 258]) /\
  encodes toy false true (ch "P") (str "wxyz") (str "wxyz") ([0; 4]%N ++ bs "wxyz") /\ order_after false false (bs ">H") = true.
Proof.
  split; [reflexivity|]. split; [|reflexivity]. eapply e_str; [constructor|cbn; lia|reflexivity|split; [repeat constructor|reflexivity]].
Qed.

(** A z string that is cut is taken as ended, at one byte after the data; at the end
    of the data there is none. *)
Theorem C143_unended : forall F little pre s, ~ In 0%N s ->
  unpack F little (pre ++ s) (bs "z") (Z.of_nat (List.length pre) + 1) =
  Ok (match s with [] => (Z.of_nat (List.length pre) + 1, []) | _ => (Z.of_nat (List.length (pre ++ s)) + 2, [Str s]) end).
Proof.
  intros F little pre s N. unfold unpack. change (items (bs "z")) with [(OP_ZSTRING, @None Z)]. cbn [unpack_items].
  change (INT_MAX <? count None) with false. change (is_endian OP_ZSTRING) with false. change (OP_ZSTRING =? OP_STRING)%N with false. cbv iota.
  change (Z.to_nat (count None)) with 1%nat. cbn [unpack_times]. replace (Z.of_nat (List.length pre) + 1 - 1) with (Z.of_nat (List.length pre)) by lia.
  unfold unpack_one. change (OP_ZSTRING =? OP_ZSTRING)%N with true. cbv iota. rewrite app_length.
  destruct s as [|x s].
  - cbn [List.length]. replace (Z.of_nat (List.length pre + 0) <=? Z.of_nat (List.length pre)) with true by lia. reflexivity.
  - replace (Z.of_nat (List.length pre + List.length (x :: s)) <=? Z.of_nat (List.length pre)) with false by (cbn [List.length]; lia).
    replace (Z.of_nat (List.length pre) <? 0) with false by lia.
    rewrite skip_pre. assert (SL : forall t, ~ In 0%N t -> strlen t = List.length t).
    { induction t as [|y t IH]; intro NI; [reflexivity|]. cbn [strlen List.length]. replace (y =? 0)%N with false; [rewrite IH; [reflexivity|]|].
      - intro I. apply NI. now right.
      - destruct (N.eqb_spec y 0) as [->|]; [exfalso; apply NI; now left|reflexivity]. }
    rewrite (SL _ N). rewrite <- (app_nil_r (pre ++ x :: s)), <- app_assoc. rewrite (slice_mid little). cbn [bind fst snd app].
    f_equal. f_equal. lia.
Qed.
Example C143_unended_ex : ~ In 0%N (bs "xy") /\ unpack toy true (bs "abxy") (bs "z") 3 = Ok (6, [str "xy"]).
Proof. split; [cbn; intuition discriminate|reflexivity]. Qed.

(** ** C144: byte order *)
Theorem C144_order : forall F little c lo hi n x z, int_kind c lo hi n -> trunc F x = Some z -> lo <= z <= hi ->
  exists b, pack F little [ch ">"; c] [Num x] = Ok b /\ pack F little [ch "<"; c] [Num x] = Ok (rev b) /\
    List.length b = n /\ octets b /\ big_value b = z mod 2 ^ (8 * Z.of_nat n) /\
    unpack F little b [ch ">"; c] 1 = Ok (Z.of_nat n + 1, [Num (of_int F z)]) /\
    unpack F little (rev b) [ch "<"; c] 1 = Ok (Z.of_nat n + 1, [Num (of_int F z)]).
Proof.
  intros F little c lo hi n x z K T R.
  assert (N8 : (n <= 8)%nat) by (destruct K; lia).
  assert (NZ : c <> 0%N /\ ~ a_digit c /\ c <> OP_STRING) by (destruct K; unfold a_digit; cbn; (split; [discriminate|split; [lia|discriminate]])).
  destruct NZ as (NZ & ND & NA).
  assert (FM : forall e, e = ch ">" \/ e = ch "<" -> format [e; c] (plain [e; c])).
  { intros e E. apply format_plain. constructor; [destruct E as [->| ->]; unfold a_digit; cbn; (split; [discriminate|lia])|]. constructor; [now split|constructor]. }
  assert (FS : forall e, small_counts INT_MAX (plain [e; c])) by (intro e; repeat constructor).
  set (b := ordered true n (z mod 2 ^ (8 * Z.of_nat n))).
  assert (MB : 0 <= z mod 2 ^ (8 * Z.of_nat n) < 2 ^ (8 * Z.of_nat n)) by (apply Z.mod_pos_bound, pow8_pos).
  assert (L : List.length b = n) by (unfold b, ordered; rewrite rev_length; apply le_length).
  assert (O : octets b) by (unfold b, ordered; apply rev_octets, le_octets).
  assert (IB : in_order true b (z mod 2 ^ (8 * Z.of_nat n))) by (apply in_order_iff; rewrite L; auto).
  assert (IL : in_order false (rev b) (z mod 2 ^ (8 * Z.of_nat n))) by (destruct IB as [_ B]; split; [now apply rev_octets|now rewrite rev_involutive]).
  assert (EB : encodes F (negb little) true c (Num x) (Num (of_int F z)) b) by (eapply e_int; eauto).
  assert (EL : encodes F (negb little) false c (Num x) (Num (of_int F z)) (rev b)) by (eapply e_int; eauto; now rewrite rev_length).
  assert (PB : packs F (negb little) (negb little) [ch ">"; c] [Num x] [Num (of_int F z)] b).
  { apply p_big. rewrite <- (app_nil_r b). apply p_item; [exact EB|constructor]. }
  assert (PL : packs F (negb little) (negb little) [ch "<"; c] [Num x] [Num (of_int F z)] (rev b)).
  { apply p_little. rewrite <- (app_nil_r (rev b)). apply p_item; [exact EL|constructor]. }
  assert (SW : forall big, swaps little big (Bool.eqb little big)) by reflexivity.
  destruct (pack_encodes F little true _ _ _ _ _ (SW true) EB) as (NE & _ & _).
  exists b. split; [|split; [|split; [exact L|split; [exact O|split; [apply IB|split]]]]].
  - apply (pack_ok F little [ch ">"; c] (plain [ch ">"; c]) [Num x] [Num (of_int F z)] b []); auto.
  - apply (pack_ok F little [ch "<"; c] (plain [ch "<"; c]) [Num x] [Num (of_int F z)] (rev b) []); auto.
  - assert (U : unpack F little b [ch ">"; c] 1 = unpack_items F little b (doendian little (ch ">")) (plain [c]) 0).
    { unfold unpack. rewrite (items_format _ _ (FM (ch ">") ltac:(now left))). reflexivity. }
    rewrite U. clear U. cbn [plain map unpack_items]. rewrite NE. change (INT_MAX <? count None) with false. cbv iota.
    replace (c =? OP_STRING)%N with false by lia. change (Z.to_nat (count None)) with 1%nat. cbn [unpack_times].
    destruct (int_kind_other _ _ _ _ K) as (A1 & A2 & A3 & A4 & A5 & A6 & A7 & A8).
    unfold unpack_one. rewrite A3, A5, A6, A7, A8. cbn [orb].
    destruct (int_kind_code _ _ _ _ K) as (sgn & I1 & I2 & I3). rewrite I1, L.
    replace (Z.of_nat n <? 0 + Z.of_nat n) with false by lia.
    rewrite (slice_ok little) by lia. change (Z.to_nat 0) with 0%nat. cbn [skipn]. rewrite Nat2Z.id. rewrite <- L at 1. rewrite firstn_all. cbn [bind fst snd app].
    unfold b at 1. rewrite (get_order little true) by (unfold swaps; now destruct little). rewrite Z.mod_mod by (pose proof (pow8_pos n); lia).
    rewrite sign_in by (auto; now apply I3). reflexivity.
  - assert (U : unpack F little (rev b) [ch "<"; c] 1 = unpack_items F little (rev b) (doendian little (ch "<")) (plain [c]) 0).
    { unfold unpack. rewrite (items_format _ _ (FM (ch "<") ltac:(now right))). reflexivity. }
    rewrite U. clear U. cbn [plain map unpack_items]. rewrite NE. change (INT_MAX <? count None) with false. cbv iota.
    replace (c =? OP_STRING)%N with false by lia. change (Z.to_nat (count None)) with 1%nat. cbn [unpack_times].
    destruct (int_kind_other _ _ _ _ K) as (A1 & A2 & A3 & A4 & A5 & A6 & A7 & A8).
    unfold unpack_one. rewrite A3, A5, A6, A7, A8. cbn [orb].
    destruct (int_kind_code _ _ _ _ K) as (sgn & I1 & I2 & I3). rewrite I1, rev_length, L.
    replace (Z.of_nat n <? 0 + Z.of_nat n) with false by lia.
    rewrite (slice_ok little) by (rewrite ?rev_length; lia). change (Z.to_nat 0) with 0%nat. cbn [skipn]. rewrite Nat2Z.id.
    replace (firstn n (rev b)) with (rev b) by (rewrite <- L, <- (rev_length b); symmetry; apply firstn_all). cbn [bind fst snd app].
    unfold b at 1. unfold ordered. rewrite rev_involutive. change (le n (z mod 2 ^ (8 * Z.of_nat n))) with (ordered false n (z mod 2 ^ (8 * Z.of_nat n))).
    rewrite (get_order little false) by (unfold swaps; now destruct little). rewrite Z.mod_mod by (pose proof (pow8_pos n); lia).
    rewrite sign_in by (auto; now apply I3). reflexivity.
Qed.
Example C144_order_ex : pack toy true (bs ">i") [num (-2)] = Ok [255; 255; 255; 254]%N /\ pack toy false (bs ">i") [num (-2)] = Ok [255; 255; 255; 254]%N /\
  pack toy false (bs "<I") [num 258] = Ok [2; 1; 0; 0]%N.
Proof. repeat split. Qed.

(** ** C145: counts *)
Theorem C145_counts : forall F little t l u, format t l -> small_counts (2 ^ 31 - 1) l -> format u (map (fun c => (c, None)) (spelt l)) ->
  (forall a, pack F little t a = pack F little u a) /\
  (Forall (fun i => fst i <> ch "A") l -> forall s init, unpack F little s t init = unpack F little s u init).
Proof.
  intros F little t l u H S U. split.
  - now apply (pack_same F little t l u).
  - intro NA. now apply (unpack_same F little t l u).
Qed.
Example C145_counts_ex : (exists l, format (bs ">3b2 ") l /\ small_counts (2 ^ 31 - 1) l /\ format (bs ">>>bb ") (map (fun c => (c, None)) (spelt l))) /\
  pack toy true (bs ">3b2 ") [num 1; num 2] = pack toy true (bs ">>>bb ") [num 1; num 2] /\
  unpack toy true (bs "abcd") (bs "A3") 1 = Ok (4, [str "abc"]) /\ unpack toy true (bs "abcd") (bs "AAA") 1 = Ok (4, [str "a"; str "b"; str "c"]).
Proof.
  split; [|repeat split].
  eexists. split; [cbn; fmt|]. split; [repeat constructor; cbn; lia|]. cbn. fmt.
Qed.

(** A: the string alone; when unpacking its count is a length. *)
Theorem C145_plain : forall F little s pre post d k, decimal d k -> Z.of_nat (List.length pre) + k <= 2 ^ 31 - 1 ->
  pack F little (bs "A") [Str s] = Ok s /\
  unpack F little (pre ++ s) (ch "A" :: d) (Z.of_nat (List.length pre) + 1) =
  Ok (if k <=? Z.of_nat (List.length s) then (Z.of_nat (List.length pre) + k + 1, [Str (firstn (Z.to_nat k) s)]) else (Z.of_nat (List.length pre) + 1, [])) /\
  unpack F little (pre ++ s ++ post) (bs "A0") (Z.of_nat (List.length pre) + 1) = Ok (Z.of_nat (List.length pre) + 1, [Str []]).
Proof.
  intros F little s pre post d k D LM. split; [|split].
  - assert (P1 : pack_one F little false OP_STRING [Str s] = Ok (s, @nil (val F))) by (cbn; now rewrite app_nil_r).
    unfold pack. change (items (bs "A")) with [(OP_STRING, @None Z)]. cbn [pack_items]. change (INT_MAX <? count None) with false.
    change (is_endian OP_STRING) with false. cbv iota. change (Z.to_nat (count None)) with 1%nat. cbn [pack_times].
    rewrite P1. cbn [bind fst snd]. now rewrite !app_nil_r.
  - pose proof (decimal_nonneg _ _ D) as K. unfold unpack.
    assert (FM : format (ch "A" :: d ++ []) [(ch "A", Some k)]) by (apply f_count; [discriminate|exact D|exact I|constructor]).
    rewrite app_nil_r in FM. rewrite (items_format _ _ FM). cbn [unpack_items count].
    replace (INT_MAX <? k) with false by (unfold INT_MAX; lia). change (is_endian (ch "A")) with false. change (ch "A" =? OP_STRING)%N with true. cbv iota.
    replace (Z.of_nat (List.length pre) + 1 - 1) with (Z.of_nat (List.length pre)) by lia.
    unfold unpack_string. destruct (Z.eqb_spec k 0) as [E|E].
    + replace (k <=? Z.of_nat (List.length s)) with true by lia. rewrite E. cbn [bind fst snd Z.to_nat firstn app]. rewrite Z.add_0_r. reflexivity.
    + replace (INT_MAX <? Z.of_nat (List.length pre) + k) with false by (unfold INT_MAX; lia).
      destruct (k <=? Z.of_nat (List.length s)) eqn:C.
      * replace (Z.of_nat (List.length (pre ++ s)) <? Z.of_nat (List.length pre) + k) with false by (rewrite app_length; lia).
        rewrite (slice_ok little) by (rewrite ?app_length; lia). rewrite skip_pre. reflexivity.
      * replace (Z.of_nat (List.length (pre ++ s)) <? Z.of_nat (List.length pre) + k) with true by (rewrite app_length; lia). reflexivity.
  - unfold unpack. change (items (bs "A0")) with [(OP_STRING, Some 0)]. cbn -[Z.of_nat Z.add Z.sub]. now replace (Z.of_nat (List.length pre) + 1 - 1) with (Z.of_nat (List.length pre)) by lia.
Qed.
Example C145_plain_ex : decimal (bs "12") 12 /\ unpack toy true (bs "abcdefghijklmn") (bs "A12") 2 = Ok (14, [str "bcdefghijklm"]).
Proof. split; [apply (d_more [ch "1"] 1 (ch "2")); [apply (d_one (ch "1"))|]; unfold a_digit; cbn; lia|reflexivity]. Qed.

(** ** C146: mistakes are Lua errors *)
Theorem C146_errors : forall F little t l cs vs ws b c more, format t l -> small_counts (2 ^ 31 - 1) l -> spelt l = cs ++ c :: more ->
  packs F (negb little) (negb little) cs vs ws b ->
  (~ In c letters -> forall extra, pack F little t (vs ++ extra) = Err) /\
  (In c (bs "zpPaAfdncbhHiIlL") -> pack F little t vs = Err) /\
  (~ In c letters -> machine F -> Forall (fun i => fst i <> ch "A") l -> Z.of_nat (List.length b) <= 2 ^ 31 - 1 ->
   forall post, unpack F little (b ++ post) t 1 = Err).
Proof.
  intros F little t l cs vs ws b c more H S E P. split; [|split].
  - intros N extra. now apply (pack_unknown F little t l cs vs ws b c more).
  - intro N. now apply (pack_missing F little t l cs vs ws b c more).
  - intros N M NA LM post. now apply (unpack_unknown F little t l cs vs ws b c more).
Qed.
Example C146_errors_ex : ~ In (ch "q") letters /\ pack toy true (bs "bq") [num 1; num 2] = Err /\ pack toy true (bs "bb") [num 1] = Err /\
  unpack toy true [1%N] (bs "bq") 1 = Err /\ pack toy true (bs "q0") [] = Ok [].
Proof. split; [cbn; intuition discriminate|]. repeat split. Qed.

Print Assumptions C141_round_trip_partial.
Print Assumptions C141_word.
Print Assumptions C141_byte.
Print Assumptions C141_refuted.
Print Assumptions C142_safe_partial.
Print Assumptions C142_negative.
Print Assumptions C142_refuted.
Print Assumptions C143_cut.
Print Assumptions C143_unended.
Print Assumptions C144_order.
Print Assumptions C145_counts.
Print Assumptions C145_plain.
Print Assumptions C146_errors.
