(** C61: what is decoded and encoded again is at most a third longer, plus a few bytes that only
    the quirks for servers that leave something out account for.

    Encoding a decoded message does not always give the bytes it was read from: a line may have
    ended with LF alone, a date may not have been quoted, an empty list becomes NIL, a single
    language becomes a list, a missing text becomes "...". A relay that decodes and forwards
    needs to know how much room all of this takes. *)

From Verif Require Import Bytes BytesFacts Features Nom Types Dec ValueSpec Grammar GrammarProps Decode EncodeCtx Encode EncodeApi
  EncodeFacts EncFragFacts Fragmentizer FragSpec FragFacts FragProps GrowSeq GrowFacts.
Open Scope nat_scope.

Section Grow.
Context {F : features}.

Theorem C61_command : forall i rest c, decode_command i = Decoded rest c ->
  3 * length (dump_fragments (encode_command c)) <= 4 * (length i - length rest).
Proof.
  intros i rest c H. apply C44_command in H as (t & -> & G). apply command_grows in G.
  unfold encode_command. rewrite dump_fragments_eq, app_length. unfold wl in G. lia.
Qed.
Print Assumptions C61_command.
Theorem C61_authenticate_data : forall i rest a, decode_authenticate_data i = Decoded rest a ->
  3 * length (dump_fragments (encode_authenticate_data a)) <= 4 * (length i - length rest) + 2.
Proof.
  intros i rest c H. apply C44_authenticate_data in H as (t & -> & G). apply authenticate_data_grows in G.
  unfold encode_authenticate_data. rewrite dump_fragments_eq, app_length. unfold wl in G. lia.
Qed.
Print Assumptions C61_authenticate_data.
Theorem C61_idle_done : forall i rest d, decode_idle_done i = Decoded rest d ->
  3 * length (dump_fragments (encode_idle_done d)) <= 4 * (length i - length rest).
Proof.
  intros i rest c H. apply C44_idle_done in H as (t & -> & G). apply idle_done_grows in G.
  unfold encode_idle_done. rewrite dump_fragments_eq, app_length. unfold wl in G. lia.
Qed.
Print Assumptions C61_idle_done.
Theorem C61_greeting : forall i rest g, decode_greeting i = Decoded rest g ->
  3 * length (dump_fragments (encode_greeting g)) <= 4 * (length i - length rest) + 7.
Proof.
  intros i rest c H. apply C44_greeting in H as (t & -> & G). apply greeting_grows in G.
  unfold encode_greeting. rewrite dump_fragments_eq, app_length. unfold wl in G. lia.
Qed.
Print Assumptions C61_greeting.
Theorem C61_response : forall i rest r, decode_response i = Decoded rest r ->
  3 * length (dump_fragments (encode_response r)) <= 4 * (length i - length rest) + 13.
Proof.
  intros i rest c H. apply C44_response in H as (t & -> & G). apply response_grows in G.
  unfold encode_response. rewrite dump_fragments_eq, app_length. unfold wl in G. lia.
Qed.
Print Assumptions C61_response.

(** So a limit on what is buffered of a message is a limit on what is forwarded. *)
Theorem C61_limit : forall n ops c,
  decode_message decode_command (fst (run (frag_new (Some n)) ops)) = DMOk c ->
  (3 * lenN (dump_fragments (encode_command c)) <= 4 * n)%N.
Proof.
  intros n ops c H. apply C06_decode in H as (L & _ & D). apply C61_command in D. unfold lenN in *. cbn [length] in D. lia.
Qed.
Print Assumptions C61_limit.
Theorem C61_limit_response : forall n ops r,
  decode_message decode_response (fst (run (frag_new (Some n)) ops)) = DMOk r ->
  (3 * lenN (dump_fragments (encode_response r)) <= 4 * n + 13)%N.
Proof.
  intros n ops c H. apply C06_decode in H as (L & _ & D). apply C61_response in D. unfold lenN in *. cbn [length] in D. lia.
Qed.
Print Assumptions C61_limit_response.
End Grow.

(** A command with unquoted dates and line ends without CR: 48 bytes become 56. *)
Example C61_command_example :
  exists c, decode_command (F := all_features) (bs "a SEARCH ON 1-Feb-2024 TO {0}" ++ [bLF] ++ bs " SINCE 1-Feb-2024" ++ [bLF; "b"%byte]) = Decoded (bs "b") c /\
    length (dump_fragments (encode_command (F := all_features) c)) = 56.
Proof. eexists. split; [vm_compute; reflexivity |]. vm_compute. reflexivity. Qed.
(** A body structure with empty literals, empty parameters and a single language: 60 bytes become 68. *)
Example C61_response_example :
  exists r, decode_response (F := all_features)
      (bs "* 1 FETCH (BODY ({0}" ++ [bLF] ++ bs " {0}" ++ [bLF] ++ bs " () NIL NIL {0}" ++ [bLF] ++ bs " 0 NIL NIL {0}" ++ [bLF] ++ bs "))" ++ [bLF]) = Decoded [] r /\
    length (dump_fragments (encode_response (F := all_features) r)) = 68.
Proof. eexists. split; [vm_compute; reflexivity |]. vm_compute. reflexivity. Qed.
(** The constants are exact. *)
Example C61_authenticate_data_exact :
  exists a, decode_authenticate_data (F := all_features) [bLF] = Decoded [] a /\
    3 * length (dump_fragments (encode_authenticate_data a)) = 4 * 1 + 2.
Proof. eexists. split; [vm_compute; reflexivity |]. vm_compute. reflexivity. Qed.
Example C61_greeting_exact :
  exists g, decode_greeting (F := all_features) (bs "* OK []" ++ [bLF]) = Decoded [] g /\
    3 * length (dump_fragments (encode_greeting (F := all_features) g)) = 4 * 8 + 7.
Proof. eexists. split; [vm_compute; reflexivity |]. vm_compute. reflexivity. Qed.
Example C61_response_exact :
  exists r, decode_response (F := all_features) (bs "+" ++ [bLF]) = Decoded [] r /\
    3 * length (dump_fragments (encode_response (F := all_features) r)) = 4 * 2 + 13.
Proof. eexists. split; [vm_compute; reflexivity |]. vm_compute. reflexivity. Qed.
