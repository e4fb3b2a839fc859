(** C62: quirks do not show on the wire and do not change what is understood. Builds with the same
    extensions understand each other whatever their quirks are, and a build with quirks repairs what it
    passes on: a build without any quirk reads it. *)

From Verif Require Import Bytes Features Nom Types Conv SeqSet EncodeCtx Encode EncodeApi EncodeFacts EncFragFacts OtherCode Valid Decode DecodeProps DecodeSpec
  DecodeFacts OkTac RtFacts RoundTripSpec RtCmd RtResp OkResp RoundTripProps MoreSpec MoreProps StrictSpec StrictFacts.

Example ex_strict_same : forall F, same_extensions F (strict F).
Proof. repeat split. Qed.

(** ** Quirks only accept more: what is accepted without them means the same with them *)
Theorem C62_command_meaning : forall F F' i rest c, same_extensions F F' -> more F F' ->
  @decode_command F i = Decoded rest c -> @decode_command F' i = Decoded rest c.
Proof.
  intros F F' i rest c S M H. destruct (C60_command F F' i rest c M H) as (c' & H' & R).
  now rewrite <- (kept_command F F' S c c' (decoded_command_valid _ _ _ H) R).
Qed.
Lemma decoded_response_other F i rest r : @decode_response F i = Decoded rest r -> @v_response F LDecoded (@other_read F) r = true.
Proof.
  intros H. apply response_decoded in H. pose proof (ok_p_response other_read other_read_decoded) as K.
  exact (okk_post (fun k => K k) _ _ _ H).
Qed.
Lemma decoded_greeting_other F i rest g : @decode_greeting F i = Decoded rest g -> @v_greeting F LDecoded (@other_read F) g = true.
Proof.
  intros H. apply simple_decoded in H. pose proof (ok_p_greeting other_read other_read_decoded) as K.
  exact (okk_post (fun k => K k) _ _ _ H).
Qed.
(** Responses and greetings: except that [CAPABILITY ...] with a space at the end, an unknown code
    without the quirk, is a known one with it. *)
Theorem C62_response_meaning : forall F F' i rest r, same_extensions F F' -> more F F' -> no_new_trailing_space F F' ->
  @decode_response F i = Decoded rest r -> @decode_response F' i = Decoded rest r.
Proof.
  intros F F' i rest r S M Z H. destruct (C60_response F F' i rest r M H) as (r' & H' & R).
  now rewrite <- (kept_response F F' S _ r r' Z other_read_kept (decoded_response_other _ _ _ _ H) R).
Qed.
Theorem C62_greeting_meaning : forall F F' i rest g, same_extensions F F' -> more F F' -> no_new_trailing_space F F' ->
  @decode_greeting F i = Decoded rest g -> @decode_greeting F' i = Decoded rest g.
Proof.
  intros F F' i rest r S M Z H. destruct (C60_greeting F F' i rest r M H) as (r' & H' & R).
  now rewrite <- (kept_greeting F F' S _ r r' Z other_read_kept (decoded_greeting_other _ _ _ _ H) R).
Qed.
(** Without the exception the claim is false. *)
Definition trailing_greeting : bytes := bs "* OK [CAPABILITY IMAP4REV1 ] x" ++ [bCR; bLF].
Theorem C62_greeting_meaning_refuted : exists F F' i rest g g', same_extensions F F' /\ more F F' /\
  @decode_greeting F i = Decoded rest g /\ @decode_greeting F' i = Decoded rest g' /\ g <> g'.
Proof.
  exists (strict default_features), default_features, trailing_greeting, [],
    (mkGreeting GKOk (Some (CdOther (bs "CAPABILITY IMAP4REV1 "))) (bs "x")),
    (mkGreeting GKOk (Some (CdCapability [CapImap4Rev1])) (bs "x")).
  split; [repeat split |]. split; [unfold more; cbn; repeat split; discriminate |].
  split; [vm_compute; reflexivity |]. split; [vm_compute; reflexivity | discriminate].
Qed.

(** ** Peers with the same extensions understand each other, whatever their quirks are *)
Theorem C62_command_peers : forall F F' c, same_extensions F F' -> @v_command F LDecoded c = true ->
  decodes_to (@encode_command F) (@decode_command F') c (@w_command F c).
Proof.
  intros F F' c S V rest. destruct (b_command F false c V) as [V' E].
  apply (C62_command_meaning (base F false)); [exact (b_same _ _ _ S) | now apply b_more; [exact S |] |].
  unfold encode_command. rewrite <- E. exact (@C09_command_exact (base F false) _ V' rest).
Qed.
Lemma to_response F F' other r : same_extensions F F' ->
  @other_kept (base F (@quirk_trailing_space_capability F')) other ->
  @v_response F LDecoded other r = true -> has_modseq r = false ->
  decodes_to (@encode_response F) (@decode_response F') r (@w_response F r).
Proof.
  intros S K V N rest. set (B := base F (@quirk_trailing_space_capability F')) in *.
  destruct (b_response F (@quirk_trailing_space_capability F') other r N V) as [V' E]. fold B in V', E.
  apply (C62_response_meaning B); [exact (b_same _ _ _ S) | now apply b_more | unfold no_new_trailing_space; cbn; auto |].
  unfold encode_response. rewrite dump_fragments_eq, <- E. unfold decode_response.
  now rewrite (P_full _ _ _ _ (P_p_response other K _ V')).
Qed.
Lemma to_greeting F F' other g : same_extensions F F' ->
  @other_kept (base F (@quirk_trailing_space_capability F')) other ->
  @v_greeting F LDecoded other g = true ->
  decodes_to (@encode_greeting F) (@decode_greeting F') g (@w_greeting F g).
Proof.
  intros S K V rest. set (B := base F (@quirk_trailing_space_capability F')) in *.
  destruct (b_greeting F (@quirk_trailing_space_capability F') other g V) as [V' E]. fold B in V', E.
  apply (C62_greeting_meaning B); [exact (b_same _ _ _ S) | now apply b_more | unfold no_new_trailing_space; cbn; auto |].
  unfold encode_greeting. rewrite dump_fragments_eq, <- E. unfold decode_greeting, simple_decode.
  now rewrite (P_full _ _ _ _ (P_p_greeting other K _ V')).
Qed.
Theorem C62_response_peers : forall F F' r, same_extensions F F' -> @v_response F LDecoded (@other_name F) r = true ->
  has_modseq r = false -> decodes_to (@encode_response F) (@decode_response F') r (@w_response F r).
Proof.
  intros F F' r S V N. apply (to_response F F' (@other_name F)); [exact S | | exact V | exact N].
  apply (@other_name_kept (base F (@quirk_trailing_space_capability F'))).
Qed.
Theorem C62_greeting_peers : forall F F' g, same_extensions F F' -> @v_greeting F LDecoded (@other_name F) g = true ->
  decodes_to (@encode_greeting F) (@decode_greeting F') g (@w_greeting F g).
Proof.
  intros F F' g S V. apply (to_greeting F F' (@other_name F)); [exact S | | exact V].
  apply (@other_name_kept (base F (@quirk_trailing_space_capability F'))).
Qed.
Theorem C62_authenticate_data_peers : forall F' a, decodes_to encode_authenticate_data (@decode_authenticate_data F') a a.
Proof. intros F'. apply C12_authenticate_data. Qed.
Theorem C62_idle_done_peers : forall F', decodes_to encode_idle_done (@decode_idle_done F') tt tt.
Proof. intros F'. apply C12_idle_done. Qed.

(** ** A build with quirks repairs what it passes on: whatever it accepted, every build with the same
    extensions (one without any quirk, for instance) reads what it writes, as the same message *)
Theorem C62_command_repaired : forall F F' i rest c, same_extensions F F' -> @decode_command F i = Decoded rest c ->
  decodes_to (@encode_command F) (@decode_command F') c (@w_command F c).
Proof. intros F F' i rest c S H. apply C62_command_peers; [exact S | now apply decoded_command_valid in H]. Qed.
Lemma b_read_kept F b : (b = true -> @quirk_trailing_space_capability F = true) -> @other_kept (base F b) (@other_read F).
Proof. intros Hb x t H. apply other_read_kept. now apply b_other_read. Qed.
Theorem C62_response_repaired : forall F F' i rest r, same_extensions F F' -> no_new_trailing_space F F' ->
  @decode_response F i = Decoded rest r -> has_modseq r = false ->
  decodes_to (@encode_response F) (@decode_response F') r (@w_response F r).
Proof.
  intros F F' i rest r S Z H N. apply (to_response F F' (@other_read F)); [exact S | now apply b_read_kept | now apply decoded_response_other in H | exact N].
Qed.
Theorem C62_greeting_repaired : forall F F' i rest g, same_extensions F F' -> no_new_trailing_space F F' ->
  @decode_greeting F i = Decoded rest g ->
  decodes_to (@encode_greeting F) (@decode_greeting F') g (@w_greeting F g).
Proof.
  intros F F' i rest r S Z H. apply (to_greeting F F' (@other_read F)); [exact S | now apply b_read_kept | now apply decoded_greeting_other in H].
Qed.
(** In particular for a reader without quirks. *)
Theorem C62_response_strict : forall F i rest r, @decode_response F i = Decoded rest r -> has_modseq r = false ->
  decodes_to (@encode_response F) (@decode_response (strict F)) r (@w_response F r).
Proof. intros F i rest r. apply C62_response_repaired; [repeat split | discriminate]. Qed.
Theorem C62_greeting_strict : forall F i rest g, @decode_greeting F i = Decoded rest g ->
  decodes_to (@encode_greeting F) (@decode_greeting (strict F)) g (@w_greeting F g).
Proof. intros F i rest r. apply C62_greeting_repaired; [repeat split | discriminate]. Qed.

(** ** Cases that meet the hypotheses: lines that a reader without quirks rejects, and their repair *)
Definition repairs_response (i j : bytes) : Prop := exists r,
  @decode_response all_features i = Decoded [] r /\ has_modseq r = false /\
  @decode_response (strict all_features) i = Error RspFailed /\
  dump_fragments (@encode_response all_features r) = j /\
  @decode_response (strict all_features) j = Decoded [] (@w_response all_features r).
Ltac repaired := eexists; split; [vm_compute; reflexivity |]; split; [vm_compute; reflexivity |];
  split; [vm_compute; reflexivity |]; split; [vm_compute; reflexivity |]; vm_compute; reflexivity.
Example ex_missing_text : repairs_response (bs "* OK [ALERT]" ++ [bLF]) (bs "* OK [ALERT] ..." ++ [bCR; bLF]).
Proof. repaired. Qed.
Example ex_trailing_space : repairs_response (bs "* SEARCH 1 2 " ++ [bCR; bLF]) (bs "* SEARCH 1 2" ++ [bCR; bLF]).
Proof. repaired. Qed.
Example ex_numbers : repairs_response
  (bs "* 1 FETCH (BODY (""x"" ""y"" NIL NIL NIL NIL -1))" ++ [bCR; bLF])
  (bs "* 1 FETCH (BODY (""x"" ""y"" NIL NIL NIL """" 0))" ++ [bCR; bLF]).
Proof. repaired. Qed.
Example ex_continue : repairs_response (bs "+" ++ [bCR; bLF]) (bs "+ ..." ++ [bCR; bLF]).
Proof. repaired. Qed.
(** What is written differs from what was given only in the form of a set (see C13). *)
Example ex_normal : exists r r', @decode_response all_features (bs "* VANISHED 3,2,1" ++ [bCR; bLF]) = Decoded [] r /\
  dump_fragments (@encode_response all_features r) = bs "* VANISHED 1:3" ++ [bCR; bLF] /\
  @decode_response (strict all_features) (bs "* VANISHED 1:3" ++ [bCR; bLF]) = Decoded [] r' /\ r' = @w_response all_features r /\ r' <> r.
Proof.
  exists (RData (DVanished false [SSingle (SValue 3); SSingle (SValue 2); SSingle (SValue 1)])), (RData (DVanished false [SRange (SValue 1) (SValue 3)])).
  split; [vm_compute; reflexivity |]. split; [vm_compute; reflexivity |]. split; [vm_compute; reflexivity |].
  split; [vm_compute; reflexivity | discriminate].
Qed.
Example ex_command : @decode_command all_features (bs "a1 SEARCH 3,2 " ++ [bLF]) = Error CmdFailed /\
  @decode_command all_features (bs "a1 SEARCH 3,2" ++ [bLF]) = Decoded [] (mkCommand (bs "a1") (CSearch None [KSequenceSet [SSingle (SValue 3); SSingle (SValue 2)]] false)) /\
  @decode_command (strict all_features) (bs "a1 SEARCH 3,2" ++ [bLF]) = Error CmdFailed.
Proof. split; [vm_compute; reflexivity |]. split; vm_compute; reflexivity. Qed.
Print Assumptions C62_command_meaning.
Print Assumptions C62_response_meaning.
Print Assumptions C62_greeting_meaning.
Print Assumptions C62_greeting_meaning_refuted.
Print Assumptions C62_command_peers.
Print Assumptions C62_response_peers.
Print Assumptions C62_greeting_peers.
Print Assumptions C62_authenticate_data_peers.
Print Assumptions C62_idle_done_peers.
Print Assumptions C62_command_repaired.
Print Assumptions C62_response_repaired.
Print Assumptions C62_greeting_repaired.
Print Assumptions C62_response_strict.
Print Assumptions C62_greeting_strict.
