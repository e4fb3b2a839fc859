(** C13, exactly: which decoded responses can be written and read again.

    The encoder writes the FETCH item MODSEQ as [MODSEQ 5], the decoder only reads [MODSEQ (5)]
    (imap-codec/src/codec/encode.rs:1780 and imap-codec/src/fetch.rs). So a response that carries one is rejected when it is read back,
    whatever else it carries and whatever follows it; and every other decoded response is read back. *)
From Verif Require Import Bytes BytesFacts Dec Features Nom Types Utf8 Conv SeqSet
  EncodeCtx Encode EncodeFacts EncodeApi Decode DecodeSpec Valid ValidFacts OkTac OkResp OkCmd DecodeFacts DecodeProps
  RtFacts RtCmd RtResp OtherCode RoundTripSpec WrittenFacts EncFragFacts RoundTripProps ModSeqFacts.
Open Scope nat_scope.

Section ModSeqProps.
Context {F : features}.

Lemma first_modseq l : existsb is_modseq l = true ->
  exists l1 n l2, l = l1 ++ MDModSeq n :: l2 /\ existsb is_modseq l1 = false.
Proof.
  induction l as [| x l IH]; [discriminate |]. cbn [existsb]. destruct (is_modseq x) eqn:E.
  - intros _. destruct x; try discriminate E. exists [], n, l. now split.
  - intros H. destruct (IH H) as (l1 & n & l2 & -> & H1). exists (x :: l1), n, l2. split; [reflexivity |].
    cbn [existsb]. now rewrite E.
Qed.

Theorem C13_modseq_rejected : forall other r, v_response LDecoded other r = true -> has_modseq r = true ->
  forall rest, decode_response (dump_fragments (encode_response r) ++ rest) = Error RspFailed.
Proof.
  intros other r V M rest. destruct r as [| d |]; try discriminate M. destruct d; try discriminate M.
  cbn [has_modseq] in M. destruct (first_modseq _ M) as (l1 & n & l2 & -> & H1).
  cbn [v_response v_data] in V. apply andb_true_iff in V as [Vn V]. unfold v1 in V. apply andb_true_iff in V as [_ V].
  rewrite forallb_app in V. apply andb_true_iff in V as [V1 _].
  assert (X : Forall (fun i => v_message_data_item LExact i = true) l1).
  { apply Forall_forall. intros x Hx. rewrite forallb_forall in V1. apply w_item; [| now apply V1].
    destruct (is_modseq x) eqn:E; [| reflexivity].
    assert (existsb is_modseq l1 = true) by (apply existsb_exists; eauto). congruence. }
  unfold encode_response. rewrite dump_fragments_eq. unfold decode_response.
  now rewrite (Rj_full _ _ _ (Rj_response _ _ n l2 Vn X)) by reflexivity.
Qed.

Theorem C13_response_iff : forall i rest r, decode_response i = Decoded rest r ->
  ((exists r', decodes_to encode_response decode_response r r') <-> has_modseq r = false).
Proof.
  intros i rest r H. split.
  - intros [r' D]. destruct (has_modseq r) eqn:M; [exfalso | reflexivity].
    assert (V : v_response LDecoded other_read r = true).
    { apply response_decoded in H. pose proof (ok_p_response other_read other_read_decoded) as K.
      exact (okk_post (fun k => K k) _ _ _ H). }
    specialize (D []). rewrite (C13_modseq_rejected _ _ V M) in D. discriminate.
  - intros M. eexists. exact (C13_response_partial _ _ _ H M).
Qed.
End ModSeqProps.

Print Assumptions C13_modseq_rejected.
Print Assumptions C13_response_iff.

(** ** The theorems are not vacuous *)
#[local] Existing Instance all_features.
#[local] Definition line (s : bytes) : bytes := s ++ [bCR; bLF].
Definition modseq_read : bytes := line (bs "* 3 FETCH (UID 7 MODSEQ (5) FLAGS ())").
Definition modseq_message : response := RData (DFetch 3 [MDUid 7; MDModSeq 5; MDFlags []]).
Example C13_modseq_hyp : decode_response modseq_read = Decoded [] modseq_message /\ has_modseq modseq_message = true.
Proof. split; vm_compute; reflexivity. Qed.
Example C13_modseq_written : dump_fragments (encode_response modseq_message) = line (bs "* 3 FETCH (UID 7 MODSEQ 5 FLAGS ())").
Proof. vm_compute. reflexivity. Qed.
Example C13_modseq_unread : ~ exists r', decodes_to encode_response decode_response modseq_message r'.
Proof. intros H. apply (C13_response_iff _ _ _ (proj1 C13_modseq_hyp)) in H. discriminate. Qed.
