(** C56: decoding takes a number of steps linear in the length of the input, whatever the
    input, and whatever features are enabled. *)

From Verif Require Import Bytes Features Nom Types ParseCore ParseBody ParseCmd ParseResp Decode CostNom CostCore
  CostBody CostCmd CostResp CostErase CostFacts CostLin4 CostLin6 CostPay.
From Coq Require Import Lia.

Local Open Scope nat_scope.

(** The decoders that count their steps decode like those of Decode.v *)
Theorem C56_counted_command {F : features} i : fst (q_command i) = p_command i.
Proof. apply er_command. Qed.
Theorem C56_counted_response {F : features} i : fst (q_response i) = p_response i.
Proof. apply er_response. Qed.
Theorem C56_counted_greeting {F : features} i : fst (q_greeting i) = p_greeting i.
Proof. apply er_greeting. Qed.
Theorem C56_counted_authenticate_data {F : features} i :
  fst (q_authenticate_data i) = p_authenticate_data i.
Proof. apply er_authenticate_data. Qed.
Theorem C56_counted_idle_done {F : features} i : fst (q_idle_done i) = p_idle_done i.
Proof. apply er_idle_done. Qed.

(** and count at least one step for every byte of the message they decode *)
Lemma pays_steps {A} (q : parser A) i r x : pays q -> fst (q i) = ROk r x -> length i <= length r + steps q i.
Proof.
  intros H E. specialize (H i). unfold steps. destruct (q i) as [y c]. cbn [fst] in E. subst y. cbn [snd]. lia.
Qed.
Theorem C56_pays_command {F : features} i r x :
  decode_command i = Decoded r x -> length i <= length r + steps_command i.
Proof.
  unfold decode_command. rewrite <- C56_counted_command. intros H. apply (pays_steps q_command i r x py_command).
  destruct (fst (q_command i)) as [r' x'| | |[[t|] n m|]|]; try discriminate. now injection H as -> ->.
Qed.
Theorem C56_pays_response {F : features} i r x :
  decode_response i = Decoded r x -> length i <= length r + steps_response i.
Proof.
  unfold decode_response. rewrite <- C56_counted_response. intros H.
  apply (pays_steps q_response i r x py_response).
  destruct (fst (q_response i)) as [r' x'| | |[t n m|]|]; try discriminate. now injection H as -> ->.
Qed.
Theorem C56_pays_greeting {F : features} i r x :
  decode_greeting i = Decoded r x -> length i <= length r + steps_greeting i.
Proof.
  unfold decode_greeting, simple_decode. rewrite <- C56_counted_greeting. intros H.
  apply (pays_steps q_greeting i r x py_greeting).
  destruct (fst (q_greeting i)) as [r' x'| | |[t n m|]|]; try discriminate. now injection H as -> ->.
Qed.

(** one bound for all combinations of features *)
Lemma bool_max (P : bool -> nat -> Prop) :
  (forall x k k', P x k -> k <= k' -> P x k') -> (forall x, exists k, P x k) -> exists k, forall x, P x k.
Proof.
  intros M H. destruct (H true) as [k1 H1], (H false) as [k2 H2]. exists (k1 + k2).
  intros [|]; [apply (M _ k1)|apply (M _ k2)]; auto; lia.
Qed.
Lemma features_max (P : features -> nat -> Prop) :
  (forall F k k', P F k -> k <= k' -> P F k') -> (forall F, exists k, P F k) -> exists k, forall F, P F k.
Proof.
  intros M H.
  assert (X : exists k, forall a b c d e f g h i j l m n o p q r s t u v,
    P (Features a b c d e f g h i j l m n o p q r s t u v) k).
  { repeat (apply bool_max; [intros ? ? ? ? ? **; eapply M; eauto|intros ?]). apply H. }
  destruct X as [k X]. exists k. intros []. apply X.
Qed.
Lemma lin_steps {A} (q : features -> parser A) :
  (forall F, cst (q F) [[]] [[]]) -> exists k, forall F i, steps (q F) i <= k * (length i + 1).
Proof.
  intros H. apply (features_max (fun F k => forall i, steps (q F) i <= k * (length i + 1))).
  - intros F k k' Hk L i. specialize (Hk i). nia.
  - intros F. exists (ca (H F) + cb (H F) + 1). intros i. pose proof (c_lin (H F) i) as L. unfold steps.
    destruct (q F i) as [[r x| | | |] c]; cbn [snd]; nia.
Qed.

Theorem C56_command : exists k, forall (F : features) i, steps_command i <= k * (length i + 1).
Proof. apply (lin_steps (@q_command)). intros F. apply L_command. Qed.
Theorem C56_response : exists k, forall (F : features) i, steps_response i <= k * (length i + 1).
Proof. apply (lin_steps (@q_response)). intros F. apply L_response. Qed.
Theorem C56_greeting : exists k, forall (F : features) i, steps_greeting i <= k * (length i + 1).
Proof. apply (lin_steps (@q_greeting)). intros F. apply L_greeting. Qed.
Theorem C56_authenticate_data : exists k, forall (F : features) i,
  steps_authenticate_data i <= k * (length i + 1).
Proof. apply (lin_steps (@q_authenticate_data)). intros F. apply L_authenticate_data. Qed.
Theorem C56_idle_done : exists k, forall (F : features) i, steps_idle_done i <= k * (length i + 1).
Proof. apply (lin_steps (fun _ => q_idle_done)). intros F. apply L_idle_done. Qed.

(** What counting amounts to: a command, longer ones, one refused at its end *)
Example C56_steps_command : let _ := default_features in
  steps_command (bs "a NOOP" ++ [bCR; bLF]) = 40 /\
  steps_command (bs "a LOGIN b c" ++ [bCR; bLF]) = 135 /\
  steps_command (bs "a LOGIN bbbbbbbbbbb c" ++ [bCR; bLF]) = 175 /\
  steps_command (bs "a SEARCH NOT NOT NOT X" ++ [bCR; bLF]) = 797.
Proof. vm_compute. auto. Qed.
(** a body structure is read twice when it fails as a text after most of it was read *)
Example C56_steps_body : let _ := default_features in
  steps_response (bs "* 1 FETCH (BODY (""TEXT"" ""PLAIN"" NIL NIL NIL ""7BIT"" 1 2))" ++ [bCR; bLF]) = 540 /\
  steps_response (bs "* 1 FETCH (BODY (""TEXT"" ""PLAIN"" NIL NIL NIL ""7BIT"" 1))" ++ [bCR; bLF]) = 727.
Proof. vm_compute. auto. Qed.

Print Assumptions C56_counted_command.
Print Assumptions C56_counted_response.
Print Assumptions C56_counted_greeting.
Print Assumptions C56_counted_authenticate_data.
Print Assumptions C56_counted_idle_done.
Print Assumptions C56_pays_command.
Print Assumptions C56_pays_response.
Print Assumptions C56_pays_greeting.
Print Assumptions C56_command.
Print Assumptions C56_response.
Print Assumptions C56_greeting.
Print Assumptions C56_authenticate_data.
Print Assumptions C56_idle_done.
