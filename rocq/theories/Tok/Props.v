(** Properties of the command line tokenizer (src/mtev_tokenizer.re). *)
From Coq Require Import Arith NArith ZArith List Bool Lia.
From Verif.Tok Require Import Model Spec Proofs.
Import ListNotations.
Local Open Scope N_scope.

(** C26: a line written by the documented rules yields exactly its words; no more than *cnt of them
    are stored. *)
Theorem C26_words s ws cnt : parse s ws Good ->
  tokenize s cnt = Done (Z.of_nat (length ws)) (Nat.min (length ws) cnt) (firstn cnt ws) ws.
Proof. exact (tokenize_parse s ws Good cnt). Qed.
Print Assumptions C26_words.

(** a\ b "c\n\"" 'd"' *)
Definition line : list N := [97; 92; 32; 98; 32; 34; 99; 92; 110; 92; 34; 34; 9; 39; 100; 34; 39].

Example C26_words_ex : parse line [[97; 32; 98]; [99; 10; 34]; [100; 34]] Good /\
  tokenize line 2 = Done 3 2 [[97; 32; 98]; [99; 10; 34]] [[97; 32; 98]; [99; 10; 34]; [100; 34]].
Proof.
  split; [|vm_compute; reflexivity].
  apply (p_bare [97; 92; 32; 98] [97; 32; 98]).
  - constructor; try discriminate; [unfold white; cbn; intuition discriminate|].
    apply bt_space. apply bt_char; try discriminate; [unfold white; cbn; intuition discriminate|constructor].
  - right. exists 32, [34; 99; 92; 110; 92; 34; 34; 9; 39; 100; 34; 39].
    split; [reflexivity|]. split; [unfold white; cbn; tauto|]. cbn. discriminate.
  - apply p_white; [unfold white; cbn; tauto|].
    apply (p_quoted [34; 99; 92; 110; 92; 34; 34] [99; 10; 34]).
    + apply (q_double [99; 92; 110; 92; 34]). apply db_plain; try discriminate.
      apply db_escape; [cbn; tauto|]. apply db_escape; [cbn; tauto|]. constructor.
    + apply p_white; [unfold white; cbn; tauto|].
      apply (p_quoted [39; 100; 34; 39] [100; 34] []); [|constructor].
      apply (q_single [100; 34]); cbn; intuition discriminate.
Qed.

(** C26: any words at all can be written, in double quotes. *)
Theorem C26_any_words ws cnt : (forall w, In w ws -> ~ In 0 w) ->
  tokenize (command ws) cnt = Done (Z.of_nat (length ws)) (Nat.min (length ws) cnt) (firstn cnt ws) ws.
Proof. exact (fun H => tokenize_parse _ ws Good cnt (parse_command ws H)). Qed.
Print Assumptions C26_any_words.

Example C26_any_words_ex : (forall w, In w [[]; [34; 92; 39; 32]] -> ~ In 0 w) /\
  tokenize (command [[]; [34; 92; 39; 32]]) 5 = Done 2 2 [[]; [34; 92; 39; 32]] [[]; [34; 92; 39; 32]].
Proof.
  split; [|vm_compute; reflexivity].
  intros w [<-|[<-|[]]]; cbn; intuition discriminate.
Qed.

(** C26: on every string the scanner stops, reads nothing past the terminator, and returns the
    number of words or a negative offset (always that of the byte after the terminator). *)
Theorem C26_total s cnt : ~ In 0 s ->
  exists ret ws, tokenize s cnt = Done ret (Nat.min (length ws) cnt) (firstn cnt ws) ws /\
    (ret = Z.of_nat (length ws) \/ ret = (- Z.of_nat (length s + 1))%Z).
Proof. exact (tokenize_total s cnt). Qed.
Print Assumptions C26_total.

Example C26_total_ex : ~ In 0 [97; 32; 34; 98; 92] /\ tokenize [97; 32; 34; 98; 92] 4 = Done 1 1 [[97]] [[97]].
Proof. split; [cbn; intuition discriminate|vm_compute; reflexivity]. Qed.

(** C60: every line is well formed or ends in an unbalanced quote, and its words are determined. *)
Theorem C60_classification s : ~ In 0 s ->
  (exists ws v, parse s ws v) /\ forall ws ws' v v', parse s ws v -> parse s ws' v' -> ws = ws'.
Proof. exact (fun H => conj (parse_total s H) (parse_unique s)). Qed.
Print Assumptions C60_classification.

Example C60_classification_ex : ~ In 0 [39; 97] /\ parse [39; 97] [] Silent.
Proof. split; [cbn; intuition discriminate|]. constructor; cbn; intuition discriminate. Qed.

(** C60 fails: an unterminated quote can be taken for the end of the line. *)
Theorem C60_unbalanced_is_error_refuted :
  ~ (forall s ws v cnt, parse s ws v -> v <> Good ->
       exists ret c vec, tokenize s cnt = Done ret c vec ws /\ (ret < 0)%Z).
Proof.
  intros H. destruct (H [39; 97] [] Silent 4%nat) as (ret & c & vec & E & N).
  - constructor; cbn; intuition discriminate.
  - discriminate.
  - vm_compute in E. injection E as <- _ _. lia.
Qed.
Print Assumptions C60_unbalanced_is_error_refuted.

Example C60_unbalanced_is_error_refuted_ex :
  tokenize [97; 32; 39; 98; 99] 4 = Done 1 1 [[97]] [[97]].
Proof. vm_compute. reflexivity. Qed.

(** C60, exactly: a lone single quote and a double quote never closed are reported; a single quote
    followed by text and a double quote ending in a backslash are dropped with the rest of the line. *)
Theorem C60_unbalanced s ws v cnt : parse s ws v -> v <> Good ->
  tokenize s cnt = Done (match v with Reported => (- Z.of_nat (length s + 1))%Z | _ => Z.of_nat (length ws) end)
                        (Nat.min (length ws) cnt) (firstn cnt ws) ws.
Proof. exact (fun H _ => tokenize_parse s ws v cnt H). Qed.
Print Assumptions C60_unbalanced.

Example C60_unbalanced_ex : parse [34; 97] [] Reported /\ tokenize [34; 97] 4 = Done (-3) 0 [] [].
Proof.
  split; [|vm_compute; reflexivity]. apply p_open_double. apply do_plain; try discriminate. constructor.
Qed.
