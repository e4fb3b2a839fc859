(** C71, continued: what is decoded and sent on is documented. *)

From Verif Require Import Bytes BytesFacts Features Nom Types EncodeCtx Encode EncodeApi EncFragFacts Valid Decode DecodeProps
  AbnfSpec SentSpec SentCmd SentResp SizedFacts SentProps.
Open Scope N_scope.

(** A message that was decoded, however lenient that was, is sent on in the documented syntax: its literals are
    never too long, and without UTF-8 in quoted strings nothing is asked of its text. *)
Lemma both_regular l : small_literals l -> plain_lines l -> regular l.
Proof. unfold small_literals, plain_lines, regular. rewrite !Forall_forall. intros A B f I. specialize (A f I). specialize (B f I). now destruct f. Qed.
Theorem C71_relayed_command : forall (F : features) i rest c, decode_command i = Decoded rest c -> doc_command c ->
  ext_utf8 = false \/ plain_lines (encode_command c) -> documented Command (dump_fragments (encode_command c)).
Proof.
  intros F i rest c H S U. pose proof H as V. apply decoded_command_valid in H. apply C14_command_valid in V. pose proof (small_command LDecoded ltac:(discriminate) c H) as L.
  unfold encode_command in *. destruct U as [U | U].
  - now apply C71_command_plain.
  - apply C71_command; [assumption .. |]. now apply both_regular.
Qed.
Theorem C71_relayed_greeting : forall (F : features) i rest g, decode_greeting i = Decoded rest g -> doc_greeting g ->
  ext_utf8 = false \/ plain_lines (encode_greeting g) -> documented Greeting (dump_fragments (encode_greeting g)).
Proof.
  intros F i rest g H S U. pose proof H as V. apply decoded_greeting_valid in H. apply C14_greeting_valid in V. pose proof (small_greeting LDecoded (fun _ _ => true) g H) as L.
  unfold encode_greeting in *. rewrite dump_fragments_eq. apply (l_greeting LType (fun _ _ => true)); [assumption .. |].
  destruct U as [U | U]; [| now apply both_regular]. destruct (fine_greeting _ g V S) as (l & E & K). rewrite E in *. now apply fine_ok.
Qed.
Theorem C71_relayed_response : forall (F : features) i rest r, decode_response i = Decoded rest r -> doc_response r ->
  ext_utf8 = false \/ plain_lines (encode_response r) -> documented Response (dump_fragments (encode_response r)).
Proof.
  intros F i rest r H S U. pose proof H as V. apply decoded_response_valid in H. apply C14_response_valid in V. pose proof (small_response LDecoded ltac:(discriminate) (fun _ _ => true) r H) as L.
  unfold encode_response in *. rewrite dump_fragments_eq. apply (l_response LType (fun _ _ => true)); [assumption .. |].
  destruct U as [U | U]; [| now apply both_regular]. destruct (fine_response _ r V S) as (l & E & K). rewrite E in *. now apply fine_ok.
Qed.
Print Assumptions C71_relayed_command.
Print Assumptions C71_relayed_greeting.
Print Assumptions C71_relayed_response.

(** The leading zeros are not documented, but accepted; they are not sent on. *)
Example C71_relayed_bytes : documented (F := default_features) Command (bs "a FETCH 7 (FLAGS UID)" ++ [bCR; bLF]).
Proof.
  assert (D : exists c, @decode_command default_features (bs "a fetch 007 (flags uid)" ++ [bCR; bLF]) = Decoded [] c /\ @doc_command default_features c /\
    dump_fragments (@encode_command default_features c) = bs "a FETCH 7 (FLAGS UID)" ++ [bCR; bLF]).
  { eexists. split; [vm_compute; reflexivity |]. split; [discriminate | vm_compute; reflexivity]. }
  destruct D as (c & D & S & <-). apply (C71_relayed_command _ _ _ _ D S). now left.
Qed.
