(** Properties of the dynamic buffers (src/utils/mtev_dyn_buffer.c). *)
From Coq Require Import Arith NArith ZArith List Bool Lia ZifyNat ZifyN.
From Verif.Dynbuf Require Import Model Spec Proofs.
Import ListNotations.

(** a history that outgrows the static array in the middle of a printf *)
Definition history : list op :=
  [Add (repeat 65%N 4095); Printf (Some [66%N]); Ensure 20; Fill [67%N; 68%N]; MaybeVprintf (Some [69%N])].

Ltac small := repeat (unfold demand; cbn [start append txt peak room request length app]); rewrite ?app_length;
  cbn [length]; lia.

Lemma history_legal : legal_run start history.
Proof.
  assert (L : length (repeat 65%N 4095) <= 4500) by (rewrite repeat_length; apply Nat.leb_le; vm_compute; reflexivity).
  unfold history. revert L. generalize (repeat 65%N 4095). intros d L. pose proof static_val as SV.
  constructor; [split; [small|exact I]|]. intros ? St; inversion St; subst; clear St.
  constructor; [split; [small|split; [eexists; reflexivity|small]]|]. intros ? St; inversion St; subst; clear St.
  constructor; [split; [small|exact I]|]. intros ? St; inversion St; subst; clear St.
  constructor; [split; [small|small]|]. intros ? St; inversion St; subst; clear St.
  constructor; [split; [small|split; [eexists; reflexivity|small]]|]. intros; constructor.
Qed.

(** C25: the used region is what was appended since the last reset, in allocated memory, and it is
    NUL terminated after a printf. *)
Theorem C25_contents ops : legal_run start ops ->
  exists b s, run init ops = Ok b /\ spec_run start ops s /\
    region b = map Some (txt s) /\ used b = length (txt s) /\
    used b + room s <= size b /\ size b = length (mem b) /\
    (nul s = true -> nth_error (mem b) (used b) = Some (Some 0%N)).
Proof. exact (contents ops). Qed.
Print Assumptions C25_contents.

Example C25_contents_ex : legal_run start history /\
  match run init history with
  | Ok b => region b = map Some (repeat 65%N 4095 ++ [66; 67; 68; 69]%N) /\ size b = 8194 /\ heap b = true
            /\ nth_error (mem b) (used b) = Some (Some 0%N)
  | _ => False
  end.
Proof.
  split; [exact history_legal|].
  destruct (run init history) as [b| |] eqn:E; vm_compute in E; try discriminate.
  injection E as <-. split; [vm_compute; reflexivity|]. split; [vm_compute; reflexivity|].
  split; vm_compute; reflexivity.
Qed.

(** C25: detaching yields the text with a terminator and a buffer as good as new, the only
    outstanding allocation being the one handed over. *)
Theorem C25_detach ops : legal_run start ops ->
  exists b s m, run init ops = Ok b /\ spec_run start ops s /\ detach b = Ok (m, init_with 1) /\
    firstn (length (txt s) + 1) m = map Some (txt s ++ [0%N]).
Proof. exact (detached ops). Qed.
Print Assumptions C25_detach.

Example C25_detach_ex : legal_run start [Add [1%N; 2%N]] /\
  match run init [Add [1%N; 2%N]] with
  | Ok b => detach b = Ok ([Some 1; Some 2; Some 0]%N, init_with 1)
  | _ => False
  end.
Proof.
  split; [|vm_compute; reflexivity].
  constructor; [split; [vm_compute; reflexivity|exact I]|intros; constructor].
Qed.

(** C25: the conditional printf appends and returns 0 exactly when text and terminator fit, and
    otherwise leaves the text alone and returns the room it needs. *)
Theorem C25_maybe_vprintf ops t : legal_run start (ops ++ [MaybeVprintf (Some t)]) ->
  exists b b' r, run init ops = Ok b /\ maybe_add_vprintf b (Some t) = Ok (b', r) /\
    ((length t < size b - used b /\ r = 0%Z /\ region b' = region b ++ map Some t) \/
     (size b - used b <= length t /\ r = Z.of_nat (length t + 1) /\ region b' = region b)).
Proof. exact (maybe_exact ops t). Qed.
Print Assumptions C25_maybe_vprintf.

Example C25_maybe_vprintf_ex :
  legal_run start ([Add (repeat 65%N 4095)] ++ [MaybeVprintf (Some [66%N])]) /\
  match run init [Add (repeat 65%N 4095)] with
  | Ok b => match maybe_add_vprintf b (Some [66%N]) with
            | Ok (b', r) => r = 2%Z /\ region b' = map Some (repeat 65%N 4095)
            | _ => False end
  | _ => False
  end.
Proof.
  split.
  - assert (L : length (repeat 65%N 4095) <= 4500) by (rewrite repeat_length; apply Nat.leb_le; vm_compute; reflexivity).
    cbn [app]. revert L. generalize (repeat 65%N 4095). intros d L. pose proof static_val as SV.
    constructor; [split; [small|exact I]|]. intros ? St; inversion St; subst; clear St.
    constructor; [split; [small|split; [eexists; reflexivity|small]]|]. intros; constructor.
  - vm_compute. split; reflexivity.
Qed.

(** C25: a libcurl download lands in the buffer whole. *)
Theorem C25_curl k b s p sz nm : R k b s -> sz * nm = length p -> legal s (Add p) ->
  exists b', curl_write b p sz nm = Ok (b', length p) /\ R k b' (append s (Add p) p false).
Proof. exact (curl_R k b s p sz nm). Qed.
Print Assumptions C25_curl.

Example C25_curl_ex : R 0 init start /\ 2 * 2 = length [1; 2; 3; 4]%N /\ legal start (Add [1; 2; 3; 4]%N) /\
  match curl_write init [1; 2; 3; 4]%N 2 2 with
  | Ok (b, n) => region b = map Some [1; 2; 3; 4]%N /\ n = 4 | _ => False end.
Proof.
  split; [exact (R_init 0)|]. split; [reflexivity|].
  split; [split; [vm_compute; reflexivity|exact I]|]. vm_compute. split; reflexivity.
Qed.

(** C58: the allocation is at most 4096 bytes or twice the largest total ever asked for, there is
    at most one heap block, and destroy leaves none. *)
Theorem C58_footprint ops : legal_run start ops ->
  exists b s, run init ops = Ok b /\ spec_run start ops s /\
    size b <= Nat.max static_size (2 * peak s) /\
    live b = (if heap b then 1 else 0) /\ live (destroy b) = 0 /\
    (peak s <= static_size -> heap b = false -> live b = 0).
Proof. exact (footprint ops). Qed.
Print Assumptions C58_footprint.

Example C58_footprint_ex : legal_run start history /\
  match run init history with Ok b => size b = 8194 /\ live b = 1 /\ live (destroy b) = 0 | _ => False end.
Proof. split; [exact history_legal|]. vm_compute. repeat split; reflexivity. Qed.

(** C59 fails: a formatting error eats the last byte. *)
Theorem C59_printf_total_refuted :
  ~ (forall ops t b, run init ops = Ok b ->
       exists b', step b (Printf t) = Ok b' /\
                  region b' = region b ++ match t with Some x => map Some x | None => [] end).
Proof.
  intros H. specialize (H [Add [65%N]] None). cbn [run step bind] in H.
  destruct (H _ eq_refl) as (b' & E & Rg). vm_compute in E. injection E as <-.
  vm_compute in Rg. discriminate.
Qed.
Print Assumptions C59_printf_total_refuted.

Example C59_printf_total_refuted_ex :
  match run init [Add [65%N; 66%N]; Printf None] with Ok b => region b = [Some 65%N] | _ => False end.
Proof. vm_compute. reflexivity. Qed.

(** C59, exactly: an encoding error in a printf moves the write position back by one byte. *)
Theorem C59_error_rewinds data : data <> [] -> (N.of_nat (length data) < 2 ^ 30)%N ->
  exists b1 b2 b3, run init [Add data] = Ok b1 /\ run init [Add data; Vprintf None] = Ok b2 /\
    run init [Add data; Printf None] = Ok b3 /\
    region b1 = map Some data /\ region b2 = map Some (removelast data) /\
    region b3 = map Some (removelast data).
Proof. exact (error_rewinds data). Qed.
Print Assumptions C59_error_rewinds.

Example C59_error_rewinds_ex : [1; 2]%N <> [] /\ (N.of_nat (length [1; 2]%N) < 2 ^ 30)%N /\
  removelast [1; 2]%N = [1%N].
Proof. split; [discriminate|]. split; [vm_compute; reflexivity|reflexivity]. Qed.

(** C59: on an empty buffer the position ends before the data, and the next store is out of bounds. *)
Theorem C59_error_underruns : exists b, run init [Vprintf None] = Ok b /\ (pos b < 0)%Z /\
  forall d, d <> [] -> (N.of_nat (length d) < 2 ^ 12)%N -> step b (Fill d) = Ub.
Proof. exact error_underruns. Qed.
Print Assumptions C59_error_underruns.

Example C59_error_underruns_ex : run init [Vprintf None; Fill [65%N]] = Ub.
Proof. vm_compute. reflexivity. Qed.

(** C59: with 2 GiB or more of room the free space does not fit the int and the call aborts. *)
Theorem C59_large_room_aborts n t :
  (2 ^ 30 <= Z.of_nat n < 2 ^ 31)%Z -> (N.of_nat (length t) < 2 ^ 31 - 1)%N ->
  run init [Ensure n; Printf (Some t)] = Abort.
Proof. exact (printf_aborts n t). Qed.
Print Assumptions C59_large_room_aborts.

Example C59_large_room_aborts_ex :
  (2 ^ 30 <= Z.of_nat (N.to_nat (2 ^ 30)) < 2 ^ 31)%Z /\ (N.of_nat (length [65%N]) < 2 ^ 31 - 1)%N.
Proof. rewrite N_nat_Z. split; [split; [discriminate|reflexivity]|reflexivity]. Qed.
