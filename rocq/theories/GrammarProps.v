(** C44: whatever a decoder accepts is a sentence of the grammar in Grammar.v with the value the
    grammar gives it, and the rest starts right after that sentence. *)

From Verif Require Import Bytes BytesFacts Features Nom Types ParseCore ParseCmd Decode ParserFacts
  ValueSpec Grammar SoundTac SoundCore SoundBody SoundCmd RespGrammar.
From Verif Require Import ParseResp.

Theorem C44_command `{F : features} i r c : decode_command i = Decoded r c ->
  exists t, i = t ++ r /\ G_command t c.
Proof.
  unfold decode_command. destruct (p_command i) as [r' c' | | | f |] eqn:E; try discriminate.
  - intros [= <- <-]. exact (sound_command i r' c' E).
  - destruct f as [[|] |]; discriminate.
Qed.
Theorem C44_authenticate_data `{F : features} i r a : decode_authenticate_data i = Decoded r a ->
  exists t, i = t ++ r /\ G_authenticate_data t a.
Proof.
  unfold decode_authenticate_data, simple_decode.
  destruct (p_authenticate_data i) as [r' c' | | | f |] eqn:E; try discriminate.
  intros [= <- <-]. exact (sound_authenticate_data i r' c' E).
Qed.
Theorem C44_idle_done `{F : features} i r u : decode_idle_done i = Decoded r u ->
  exists t, i = t ++ r /\ G_idle_done t u.
Proof.
  unfold decode_idle_done, simple_decode.
  destruct (p_idle_done i) as [r' c' | | | f |] eqn:E; try discriminate.
  intros [= <- <-]. exact (sound_idle_done i r' c' E).
Qed.
Theorem C44_greeting `{F : features} i r g : decode_greeting i = Decoded r g ->
  exists t, i = t ++ r /\ G_greeting t g.
Proof.
  unfold decode_greeting, simple_decode.
  destruct (p_greeting i) as [r' c' | | | f |] eqn:E; try discriminate.
  intros [= <- <-]. exact (sound_greeting i r' c' E).
Qed.
Theorem C44_response `{F : features} i r x : decode_response i = Decoded r x ->
  exists t, i = t ++ r /\ G_response t x.
Proof.
  unfold decode_response. destruct (p_response i) as [r' c' | | | f |] eqn:E; try discriminate.
  - intros [= <- <-]. exact (sound_response i r' c' E).
  - destruct f; discriminate.
Qed.
Print Assumptions C44_greeting.
Print Assumptions C44_response.
Print Assumptions C44_command.
Print Assumptions C44_authenticate_data.
Print Assumptions C44_idle_done.

Example C44_example : exists c, @decode_command all_features
    (bs "a1 uid Store 2:* (UNCHANGEDSINCE 7) +FLAGS.SILENT (\seen x)" ++ [bCR; bLF] ++ bs "a2") =
  Decoded (bs "a2") c.
Proof. eexists. vm_compute. reflexivity. Qed.
Example C44_example_response : exists x, @decode_response all_features
    (bs "* 12 Fetch (UID 7 FLAGS (\seen) BODY[TEXT]<3> {2}" ++ [bCR; bLF] ++ bs "ab)" ++ [bCR; bLF] ++ bs "* ") =
  Decoded (bs "* ") x.
Proof. eexists. vm_compute. reflexivity. Qed.
Example C44_example_code : exists x, @decode_response all_features
    (bs "* ok [UIDNEXT 5] x" ++ [bCR; bLF]) = Decoded [] x.
Proof. eexists. vm_compute. reflexivity. Qed.
Example C44_example_greeting : exists x, @decode_greeting all_features
    (bs "* PREAUTH [X-UNKNOWN a b] hello" ++ [bCR; bLF]) = Decoded [] x.
Proof. eexists. vm_compute. reflexivity. Qed.
