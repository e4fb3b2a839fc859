(** C53: a decoded message holds no more than the bytes it was read from.

    The size of a message is in SizeSpec.v: one for every byte of every string, for every element
    of every list and for every box. *)

From Verif Require Import Bytes BytesFacts Features Nom Types Dec ValueSpec Grammar GrammarProps Decode
  Fragmentizer FragSpec FragFacts FragProps SizeSpec SizeFacts.
Open Scope nat_scope.

Section Size.
Context {F : features}.

Theorem C53_command : forall i rest c, decode_command i = Decoded rest c ->
  command_size c + length rest <= length i.
Proof.
  intros i rest c H. apply C44_command in H as (t & -> & G). apply command_fits in G. rewrite app_length. lia.
Qed.
Print Assumptions C53_command.
Theorem C53_authenticate_data : forall i rest a, decode_authenticate_data i = Decoded rest a ->
  authenticate_data_size a + length rest <= length i.
Proof.
  intros i rest c H. apply C44_authenticate_data in H as (t & -> & G). apply authenticate_data_fits in G.
  rewrite app_length. lia.
Qed.
Print Assumptions C53_authenticate_data.
Theorem C53_greeting : forall i rest g, decode_greeting i = Decoded rest g ->
  greeting_size g + length rest <= length i.
Proof.
  intros i rest c H. apply C44_greeting in H as (t & -> & G). apply greeting_fits in G. rewrite app_length. lia.
Qed.
Print Assumptions C53_greeting.
(** With quirk_empty_continue_req and quirk_crlf_relaxed, the two bytes "+" LF are read as a
    continuation request with the three bytes "...". *)
Theorem C53_response : forall i rest r, decode_response i = Decoded rest r ->
  response_size r + length rest <= length i \/
  (quirk_empty_continue_req = true /\ quirk_crlf_relaxed = true /\ i = bs "+" ++ [bLF] ++ rest /\
   r = RContinue (CRBasic None (bs "..."))).
Proof.
  intros i rest c H. apply C44_response in H as (t & -> & G).
  apply response_fits in G as [G | (Q1 & Q2 & -> & ->)]; [left | right; now rewrite <- app_assoc].
  rewrite app_length. lia.
Qed.
Print Assumptions C53_response.
(** So a limit on what is buffered of a message is a limit on the message. *)
Theorem C53_limit : forall n ops c,
  decode_message decode_command (fst (run (frag_new (Some n)) ops)) = DMOk c ->
  (N.of_nat (command_size c) <= n)%N.
Proof.
  intros n ops c H. apply C06_decode in H as (L & _ & D). apply C53_command in D. unfold lenN in L. cbn in D. lia.
Qed.
Print Assumptions C53_limit.
Theorem C53_limit_response : forall n ops r,
  decode_message decode_response (fst (run (frag_new (Some n)) ops)) = DMOk r ->
  (N.of_nat (response_size r) <= N.max 3 n)%N.
Proof.
  intros n ops r H. apply C06_decode in H as (L & _ & D).
  apply C53_response in D as [D | (_ & _ & _ & ->)]; [unfold lenN in L; cbn in D; lia | cbn; lia].
Qed.
Print Assumptions C53_limit_response.
End Size.

(** Elements, nested lists, a keyword and the tag: 20 of 39 bytes. *)
Example C53_command_example :
  exists c, decode_command (F := default_features) (bs "a SEARCH (1 2 (3 4)) KEYWORD abcdefgh" ++ [bCR; bLF]) = Decoded [] c /\
    command_size c = 20.
Proof. eexists. split; vm_compute; reflexivity. Qed.
(** An announced literal counts when its bytes are there. *)
Example C53_literal :
  exists c, decode_command (F := default_features) (bs "a LOGIN {3}" ++ [bCR; bLF] ++ bs "abc x" ++ [bCR; bLF] ++ bs "b") = Decoded (bs "b") c /\
    command_size c = 5.
Proof. eexists. split; vm_compute; reflexivity. Qed.
Example C53_response_example :
  exists r, decode_response (F := default_features) (bs "* 1 FETCH (FLAGS (\Seen abc) RFC822 {2}" ++ [bCR; bLF] ++ bs "hi)" ++ [bCR; bLF]) = Decoded [] r /\
    response_size r = 9.
Proof. eexists. split; vm_compute; reflexivity. Qed.
(** The exception *)
Example C53_empty_continue :
  decode_response (F := all_features) (bs "+" ++ [bLF]) = Decoded [] (RContinue (CRBasic None (bs "..."))) /\
  response_size (RContinue (CRBasic None (bs "..."))) = 3.
Proof. split; vm_compute; reflexivity. Qed.
