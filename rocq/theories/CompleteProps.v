(** C45: every sentence of the grammar in Grammar.v is decoded, to the value the grammar gives it,
    whatever follows it. *)

From Verif Require Import Bytes BytesFacts Features Nom Types ParseCore ParseCmd Decode ParserFacts
  ValueSpec ValueFacts Grammar SoundTac SoundCore CompTac CompCore CompBody CompCmd RespGrammar GrammarProps.

Theorem C45_command `{F : features} t c s : G_command t c -> decode_command (t ++ s) = Decoded s c.
Proof. intros G. unfold decode_command. now rewrite (command_go t c s G). Qed.
Theorem C45_authenticate_data `{F : features} t a s : G_authenticate_data t a ->
  decode_authenticate_data (t ++ s) = Decoded s a.
Proof. intros G. unfold decode_authenticate_data, simple_decode. now rewrite (authenticate_data_go t a s G). Qed.
Theorem C45_idle_done `{F : features} t a s : G_idle_done t a -> decode_idle_done (t ++ s) = Decoded s a.
Proof. intros G. unfold decode_idle_done, simple_decode. now rewrite (idle_done_go t a s G). Qed.
Theorem C45_greeting `{F : features} t g s : G_greeting t g -> decode_greeting (t ++ s) = Decoded s g.
Proof. intros G. unfold decode_greeting, simple_decode. now rewrite (greeting_go t g s G). Qed.
Theorem C45_response `{F : features} t x s : G_response t x -> decode_response (t ++ s) = Decoded s x.
Proof. intros G. unfold decode_response. now rewrite (response_go t x s G). Qed.
(** The grammar gives a text one meaning, and no sentence is the beginning of another one. *)
Theorem C45_unambiguous `{F : features} t c t' c' s s' : G_command t c -> G_command t' c' ->
  t ++ s = t' ++ s' -> t = t' /\ c = c'.
Proof.
  intros G G' E. pose proof (C45_command t c s G) as H. pose proof (C45_command t' c' s' G') as H'.
  rewrite E, H' in H. injection H as <- <-. apply app_inv_tail in E. auto.
Qed.
(** Together with C44: the decoder accepts exactly the sentences of the grammar. *)
Theorem C45_exactly `{F : features} i r c : decode_command i = Decoded r c <-> exists t, i = t ++ r /\ G_command t c.
Proof.
  split; [apply C44_command |]. intros (t & -> & G). now apply C45_command.
Qed.
Theorem C45_unambiguous_greeting `{F : features} t c t' c' s s' : G_greeting t c -> G_greeting t' c' ->
  t ++ s = t' ++ s' -> t = t' /\ c = c'.
Proof.
  intros G G' E. pose proof (C45_greeting t c s G) as H. pose proof (C45_greeting t' c' s' G') as H'.
  rewrite E, H' in H. injection H as <- <-. apply app_inv_tail in E. auto.
Qed.
Theorem C45_unambiguous_response `{F : features} t c t' c' s s' : G_response t c -> G_response t' c' ->
  t ++ s = t' ++ s' -> t = t' /\ c = c'.
Proof.
  intros G G' E. pose proof (C45_response t c s G) as H. pose proof (C45_response t' c' s' G') as H'.
  rewrite E, H' in H. injection H as <- <-. apply app_inv_tail in E. auto.
Qed.
Theorem C45_exactly_greeting `{F : features} i r g : decode_greeting i = Decoded r g <-> exists t, i = t ++ r /\ G_greeting t g.
Proof.
  split; [apply C44_greeting |]. intros (t & -> & G). now apply C45_greeting.
Qed.
Theorem C45_exactly_response `{F : features} i r x : decode_response i = Decoded r x <-> exists t, i = t ++ r /\ G_response t x.
Proof.
  split; [apply C44_response |]. intros (t & -> & G). now apply C45_response.
Qed.
Theorem C45_exactly_authenticate_data `{F : features} i r a : decode_authenticate_data i = Decoded r a <->
  exists t, i = t ++ r /\ G_authenticate_data t a.
Proof.
  split; [apply C44_authenticate_data |]. intros (t & -> & G). now apply C45_authenticate_data.
Qed.
Theorem C45_exactly_idle_done `{F : features} i r a : decode_idle_done i = Decoded r a <->
  exists t, i = t ++ r /\ G_idle_done t a.
Proof.
  split; [apply C44_idle_done |]. intros (t & -> & G). now apply C45_idle_done.
Qed.
Print Assumptions C45_greeting.
Print Assumptions C45_response.
Print Assumptions C45_unambiguous_greeting.
Print Assumptions C45_unambiguous_response.
Print Assumptions C45_exactly_greeting.
Print Assumptions C45_exactly_response.
Print Assumptions C45_exactly_authenticate_data.
Print Assumptions C45_exactly_idle_done.
Print Assumptions C45_command.
Print Assumptions C45_authenticate_data.
Print Assumptions C45_idle_done.
Print Assumptions C45_unambiguous.
Print Assumptions C45_exactly.

(** A sentence with an odd spelling *)
Example C45_sentence : @G_command default_features
  (bs "a1 uid Copy 2:* ""inbox""" ++ [bCR; bLF]) (mkCommand (bs "a1") (CCopy [SRange (SValue 2) SAsterisk] MInbox true)).
Proof.
  change (bs "a1 uid Copy 2:* ""inbox""" ++ [bCR; bLF]) with
    (bs "a1" ++ bs " " ++ (bs "uid " ++ bs "Copy " ++ (bs "2" ++ bs ":" ++ bs "*") ++ bs " " ++ ([bDQ] ++ bs "inbox" ++ [bDQ]))
      ++ [bCR; bLF]).
  assert (L : forall a b, lowers a = lowers b -> same_letters a b) by (intros a b; apply same_letters_spec).
  apply g_command; [| apply g_cmd_copy | now left].
  - split; [| reflexivity]. now apply (proj1 (tag_ok_spec _)).
  - apply g_uid, L. reflexivity.
  - apply L. reflexivity.
  - apply sep_one, g_seq_range; [| constructor].
    apply g_seq_value. split; [| discriminate]. now apply num_of.
  - apply (g_mailbox _ (AString (IQuoted (bs "inbox")))).
    + apply g_astr_string, g_str_quoted, g_quoted; [apply quoted_body_spec; reflexivity |].
      apply Forall_forall. intros b I. apply is_text_char_spec. revert b I.
      apply (proj1 (forallb_forall is_text_char (bs "inbox"))). reflexivity.
    + left. split; [reflexivity |]. apply L. reflexivity.
Qed.
Example C45_sentence_response : @G_response default_features
  (bs "* oK [uidNext 7] done" ++ [bCR; bLF]) (RStatus (StUntagged (mkStatusBody SKOk (Some (CdUidNext 7)) (bs "done")))).
Proof.
  change (bs "* oK [uidNext 7] done" ++ [bCR; bLF]) with
    (bs "* " ++ (bs "oK " ++ (bs "[" ++ (bs "uidNext " ++ bs "7") ++ bs "]" ++ (bs " " ++ bs "done"))) ++ [bCR; bLF]).
  assert (L : forall a b, lowers a = lowers b -> same_letters a b) by (intros a b; apply same_letters_spec).
  apply g_rsp_untagged; [| now left]. apply g_status_body.
  - eapply word_intro; [left; reflexivity | apply L; reflexivity].
  - apply g_rt_code.
    + eapply g_code_number; [eapply word_intro; [left; reflexivity | apply L; reflexivity] |].
      split; [now apply num_of | discriminate].
    + apply g_tac_text. now apply text_ok_spec.
Qed.
Example C45_sentence_greeting : @G_greeting default_features
  (bs "* PreAuth hello" ++ [bCR; bLF]) (mkGreeting GKPreAuth None (bs "hello")).
Proof.
  change (bs "* PreAuth hello" ++ [bCR; bLF]) with (bs "* " ++ bs "PreAuth " ++ bs "hello" ++ [bCR; bLF]).
  assert (L : forall a b, lowers a = lowers b -> same_letters a b) by (intros a b; apply same_letters_spec).
  apply g_greeting; [| | now left].
  - eapply word_intro; [right; left; reflexivity | apply L; reflexivity].
  - apply g_rt_text; [now apply text_ok_spec | intros u; discriminate].
Qed.
Example C45_sentence_authenticate_data :
  @G_authenticate_data default_features (bs "*" ++ [bCR; bLF]) ADCancel /\
  @G_authenticate_data default_features (bs "AGE=" ++ [bCR; bLF]) (ADContinue [x00; x61]).
Proof.
  split; [apply g_ad_cancel; now left |].
  apply g_ad_continue; [| now left].
  apply base64_spec. reflexivity.
Qed.
Example C45_sentence_idle_done : @G_idle_done default_features (bs "dOnE" ++ [bCR; bLF]) tt.
Proof. apply g_idle_done; [| now left]. apply same_letters_spec. reflexivity. Qed.
