(** C63: line endings, other control characters that are none of a text, and 8-bit bytes only travel in
    literals (and, in responses and greetings, in unknown response codes). What is decoded is a line of
    text apart from the literals in it, and so is what is sent, whatever the application put in. *)

From Verif Require Import Bytes BytesFacts Dec Features Nom Types Conv Valid EncodeCtx Encode EncodeApi EncodeFacts EncFragFacts Decode DecodeProps ValueSpec ValueFacts Grammar GrammarProps
  RtFacts RtResp OtherCode SoundCore MoreProps CleanSpec CleanFacts CleanEncFacts.

(** ** Receiving *)
Theorem C63_command : forall (F : features) i rest c, ext_utf8 = false ->
  decode_command i = Decoded rest c -> exists t, i = t ++ rest /\ clean TEXT_CHAR t.
Proof.
  intros F i rest c U H. apply C44_command in H as (t & -> & H). exists t. split; [reflexivity |].
  exact (command_clean U TEXT_CHAR (fun b h => h) t c H).
Qed.
Theorem C63_authenticate_data : forall (F : features) i rest a,
  decode_authenticate_data i = Decoded rest a -> exists t, i = t ++ rest /\ clean TEXT_CHAR t.
Proof.
  intros F i rest c H. apply C44_authenticate_data in H as (t & -> & H). exists t. split; [reflexivity |].
  exact (authenticate_data_clean TEXT_CHAR (fun b h => h) t c H).
Qed.
Theorem C63_idle_done : forall (F : features) i rest a,
  decode_idle_done i = Decoded rest a -> exists t, i = t ++ rest /\ clean TEXT_CHAR t.
Proof.
  intros F i rest c H. apply C44_idle_done in H as (t & -> & H). exists t. split; [reflexivity |].
  exact (idle_done_clean TEXT_CHAR (fun b h => h) t c H).
Qed.
(** Responses and greetings: no line ending outside of a literal but at the end ... *)
Lemma text_line b : TEXT_CHAR b -> LINE_CHAR b.
Proof. now intros [_ H]. Qed.
Theorem C63_greeting_lines : forall (F : features) i rest g, ext_utf8 = false ->
  decode_greeting i = Decoded rest g -> exists t, i = t ++ rest /\ clean LINE_CHAR t.
Proof.
  intros F i rest g U H. apply C44_greeting in H as (t & -> & H). exists t. split; [reflexivity |].
  apply (greeting_clean U LINE_CHAR text_line t g H). exact (greeting_code_line t g H).
Qed.
Theorem C63_response_lines : forall (F : features) i rest r, ext_utf8 = false ->
  decode_response i = Decoded rest r -> exists t, i = t ++ rest /\ clean LINE_CHAR t.
Proof.
  intros F i rest r U H. apply C44_response in H as (t & -> & H). exists t. split; [reflexivity |].
  apply (response_clean U LINE_CHAR text_line t r H). exact (response_code_line t r H).
Qed.
(** ... and nothing but text, unless an unknown code has other bytes. *)
Theorem C63_greeting : forall (F : features) i rest g, ext_utf8 = false -> Forall TEXT_CHAR (greeting_code g) ->
  decode_greeting i = Decoded rest g -> exists t, i = t ++ rest /\ clean TEXT_CHAR t.
Proof.
  intros F i rest g U C H. apply C44_greeting in H as (t & -> & H). exists t. split; [reflexivity |].
  exact (greeting_clean U TEXT_CHAR (fun b h => h) t g H C).
Qed.
Theorem C63_response : forall (F : features) i rest r, ext_utf8 = false -> Forall TEXT_CHAR (response_code r) ->
  decode_response i = Decoded rest r -> exists t, i = t ++ rest /\ clean TEXT_CHAR t.
Proof.
  intros F i rest r U C H. apply C44_response in H as (t & -> & H). exists t. split; [reflexivity |].
  exact (response_clean U TEXT_CHAR (fun b h => h) t r H C).
Qed.

(** ** Sending: every value the types allow, also those that are not read back *)
Theorem C63_command_sent : forall (F : features) c, ext_utf8 = false -> v_command LType c = true ->
  clean TEXT_CHAR (dump_fragments (encode_command c)).
Proof. intros F c U V. unfold encode_command. rewrite dump_fragments_eq. now apply command_sent. Qed.
Theorem C63_authenticate_data_sent : forall (F : features) a, clean TEXT_CHAR (dump_fragments (encode_authenticate_data a)).
Proof. intros F a. unfold encode_authenticate_data. rewrite dump_fragments_eq. apply authenticate_data_sent. Qed.
Theorem C63_idle_done_sent : forall (F : features) u, clean TEXT_CHAR (dump_fragments (encode_idle_done u)).
Proof.
  intros F u. apply (clean_intro TEXT_CHAR (bs "DONE") [bCR; bLF]); [| now left].
  apply (line_const TEXT_CHAR (fun b h => h)). reflexivity.
Qed.
Theorem C63_greeting_sent : forall (F : features) g, ext_utf8 = false -> v_greeting LType other_name g = true ->
  Forall TEXT_CHAR (greeting_code g) -> clean TEXT_CHAR (dump_fragments (encode_greeting g)).
Proof. intros F g U V C. unfold encode_greeting. rewrite dump_fragments_eq. now apply (greeting_sent other_name). Qed.
Theorem C63_response_sent : forall (F : features) r, ext_utf8 = false -> v_response LType other_name r = true ->
  Forall TEXT_CHAR (response_code r) -> clean TEXT_CHAR (dump_fragments (encode_response r)).
Proof. intros F r U V C. unfold encode_response. rewrite dump_fragments_eq. now apply (response_sent other_name). Qed.

(** ** The conditions are needed *)
(** Without them: an unknown code may have a NUL and 8-bit bytes in it, ... *)
Theorem C63_response_refuted : ~ forall (F : features) i rest r, ext_utf8 = false ->
  decode_response i = Decoded rest r -> exists t, i = t ++ rest /\ clean TEXT_CHAR t.
Proof.
  intros H. pose (i := bs "* OK [" ++ [x00; xff] ++ bs "] x" ++ [bCR; bLF]).
  assert (D : exists r, @decode_response no_features i = Decoded [] r) by (eexists; vm_compute; reflexivity).
  destruct D as (r & D). destruct (H no_features i [] r eq_refl D) as (t & E & C). rewrite app_nil_r in E. subst t.
  apply (clean_bytes TEXT_CHAR i x00) in C.
  - destruct C as [[C _] | [C | C]]; [cbv in C; now destruct C as [C _] | discriminate | discriminate].
  - cbn. intuition discriminate.
  - cbn. tauto.
Qed.
(** ... with [ext_utf8] a quoted string may have line endings in it, ... *)
Theorem C63_command_refuted : ~ forall (F : features) i rest c,
  decode_command i = Decoded rest c -> exists t, i = t ++ rest /\ clean TEXT_CHAR t.
Proof.
  intros H. pose (i := bs "a LOGIN x " ++ [bDQ; xc3; xa9; bCR; bLF] ++ bs "b NOOP" ++ [bDQ; bCR; bLF]).
  assert (D : exists r, @decode_command all_features i = Decoded [] r) by (eexists; vm_compute; reflexivity).
  destruct D as (r & D). destruct (H all_features i [] r D) as (t & E & C). rewrite app_nil_r in E. subst t.
  apply (clean_bytes TEXT_CHAR i xc3) in C.
  - destruct C as [[C _] | [C | C]]; [cbv in C; destruct C as [_ C]; now apply C | discriminate | discriminate].
  - cbn. intuition discriminate.
  - cbn. tauto.
Qed.
(** ... and a referral may be any string. Here a client sees three responses where one was sent. *)
Definition with_referrals : features := Features false false false false false true false false false false false
  false false false false false false false false false false.
Definition referral : response :=
  RStatus (StUntagged (mkStatusBody SKNo (Some (CdReferral (bs "a] x" ++ [bCR; bLF] ++ bs "* 7 EXISTS" ++ [bCR; bLF] ++ bs "* OK [" ++ [xc3; xa9]))) (bs "x"))).
Theorem C63_response_sent_refuted : ~ forall (F : features) r, ext_utf8 = false -> v_response LType other_name r = true ->
  clean TEXT_CHAR (dump_fragments (encode_response r)).
Proof.
  intros H. specialize (H with_referrals referral eq_refl eq_refl).
  apply (clean_bytes TEXT_CHAR _ xc3) in H.
  - destruct H as [[C _] | [C | C]]; [cbv in C; destruct C as [_ C]; now apply C | discriminate | discriminate].
  - vm_compute. intuition discriminate.
  - vm_compute. tauto.
Qed.
Example ex_three : exists a b c r1 r2 i, i = dump_fragments (@encode_response with_referrals referral) /\
  @decode_response with_referrals i = Decoded r1 a /\ @decode_response with_referrals r1 = Decoded r2 b /\ b = RData (DExists 7) /\
  @decode_response with_referrals r2 = Decoded [] c.
Proof. do 6 eexists. split; [vm_compute; reflexivity |]. split; [vm_compute; reflexivity |]. split; [vm_compute; reflexivity |]. split; [reflexivity | vm_compute; reflexivity]. Qed.

(** ** The theorems apply: a message with a literal that has line endings in it *)
Example ex_received : exists c, @decode_command default_features (bs "a LOGIN x {4}" ++ [bCR; bLF; xc3; xa9; bCR; bLF; bCR; bLF] ++ bs "b") = Decoded (bs "b") c.
Proof. eexists. vm_compute. reflexivity. Qed.
Example ex_sent : let c := mkCommand (bs "a") (CLogin (AAtom (bs "x")) (AString (ILiteral (mkLit [xc3; xa9; bCR; bLF] Sync)))) in
  @ext_utf8 default_features = false /\ @v_command default_features LType c = true /\
  dump_fragments (@encode_command default_features c) = bs "a LOGIN x {4}" ++ [bCR; bLF; xc3; xa9; bCR; bLF; bCR; bLF].
Proof. repeat split; vm_compute; reflexivity. Qed.
Example ex_clean : @clean default_features TEXT_CHAR (bs "a {4}" ++ [bCR; bLF; xc3; xa9; bCR; bLF; bCR; bLF]).
Proof.
  apply (clean_intro TEXT_CHAR (bs "a {4}" ++ [bCR; bLF; xc3; xa9; bCR; bLF]) [bCR; bLF]); [| now left].
  apply ol_char; [now apply textb_text |]. apply ol_char; [now apply textb_text |].
  apply (ol_literal TEXT_CHAR (bs "4") [bCR; bLF] [xc3; xa9; bCR; bLF] []); [discriminate | | now left | | constructor].
  - apply digits_spec. now split.
  - repeat constructor; intros K; discriminate K.
Qed.
Print Assumptions C63_command.
Print Assumptions C63_authenticate_data.
Print Assumptions C63_idle_done.
Print Assumptions C63_greeting_lines.
Print Assumptions C63_response_lines.
Print Assumptions C63_greeting.
Print Assumptions C63_response.
Print Assumptions C63_command_sent.
Print Assumptions C63_authenticate_data_sent.
Print Assumptions C63_idle_done_sent.
Print Assumptions C63_greeting_sent.
Print Assumptions C63_response_sent.
Print Assumptions C63_response_refuted.
Print Assumptions C63_command_refuted.
Print Assumptions C63_response_sent_refuted.
