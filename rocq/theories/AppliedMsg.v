(** The hypotheses of the theorems about messages are met: each theorem applied to concrete messages.
    (Further examples, chosen for what they show, stand beside the theorems themselves.) *)

From Verif Require Import Bytes BytesFacts Dec Features Nom Types Utf8 Conv Valid OtherCode EncodeCtx Encode EncodeApi Decode DecodeSpec
  Fragmentizer FragSpec ValueSpec Grammar DecodeProps DepthProps RoundTripSpec RoundTripProps GrammarProps CompleteProps CaseProps NumberProps
  SerdeTypes SerdeSpec SerdeProps SizeProps CostProps KindProps MoreSpec MoreProps GrowProps StrictSpec StrictProps CleanSpec CleanProps
  ModSeqProps ValueProps.

Notation D := default_features.
Notation A := all_features.

(** ** The messages *)
Definition cmd_bytes : bytes := bs "a1 uid Search Charset utf-8 or (larger 7 2:*) subject {3}" ++ [bCR; bLF] ++ bs "x" ++ [bCR; bLF] ++ [bCR; bLF].
Definition cmd : command := mkCommand (bs "a1") (CSearch (Some (CharsetAtom (bs "utf-8")))
  [KOr (KAnd [KLarger 7; KSequenceSet [SRange (SValue 2) SAsterisk]]) (KSubject (AString (ILiteral (mkLit (bs "x" ++ [bCR; bLF]) Sync))))] true).
Definition rsp_bytes : bytes := bs "* 12 Fetch (uid 7 flags (\seen Deleted) body[text]<3> {2}" ++ [bCR; bLF] ++ bs "ab)" ++ [bCR; bLF].
Definition rsp : response := RData (DFetch 12 [MDUid 7; MDFlags [FFFlag FSeen; FFFlag (FKeyword (bs "Deleted"))];
  MDBodyExt (Some (SecText None)) (Some 3%N) (Some (ILiteral (mkLit (bs "ab") Sync)))]).
Definition grt_bytes : bytes := bs "* preauth [uidnext 17] hello" ++ [bCR; bLF].
Definition grt : greeting := mkGreeting GKPreAuth (Some (CdUidNext 17)) (bs "hello").
Definition aut_bytes : bytes := bs "c2VjcmV0" ++ [bCR; bLF].
Definition aut : authenticate_data := ADContinue (bs "secret").
Definition idl_bytes : bytes := bs "done" ++ [bCR; bLF].
Definition more_bytes : bytes := bs "* b2".

Lemma cmd_D : @decode_command D (cmd_bytes ++ more_bytes) = Decoded more_bytes cmd. Proof. vm_compute. reflexivity. Qed.
Lemma cmd_A : @decode_command A (cmd_bytes ++ more_bytes) = Decoded more_bytes cmd. Proof. vm_compute. reflexivity. Qed.
Lemma rsp_D : @decode_response D (rsp_bytes ++ more_bytes) = Decoded more_bytes rsp. Proof. vm_compute. reflexivity. Qed.
Lemma rsp_A : @decode_response A (rsp_bytes ++ more_bytes) = Decoded more_bytes rsp. Proof. vm_compute. reflexivity. Qed.
Lemma grt_D : @decode_greeting D (grt_bytes ++ more_bytes) = Decoded more_bytes grt. Proof. vm_compute. reflexivity. Qed.
Lemma grt_A : @decode_greeting A (grt_bytes ++ more_bytes) = Decoded more_bytes grt. Proof. vm_compute. reflexivity. Qed.
Lemma aut_D : @decode_authenticate_data D (aut_bytes ++ more_bytes) = Decoded more_bytes aut. Proof. vm_compute. reflexivity. Qed.
Lemma aut_A : @decode_authenticate_data A (aut_bytes ++ more_bytes) = Decoded more_bytes aut. Proof. vm_compute. reflexivity. Qed.
Lemma idl_D : @decode_idle_done D (idl_bytes ++ more_bytes) = Decoded more_bytes tt. Proof. vm_compute. reflexivity. Qed.
Lemma idl_A : @decode_idle_done A (idl_bytes ++ more_bytes) = Decoded more_bytes tt. Proof. vm_compute. reflexivity. Qed.
Lemma cmd_decoded : @v_command D LDecoded cmd = true. Proof. vm_compute. reflexivity. Qed.
Lemma cmd_exact : @v_command D LExact cmd = true. Proof. vm_compute. reflexivity. Qed.
Lemma cmd_type : @v_command D LType cmd = true. Proof. vm_compute. reflexivity. Qed.
Lemma rsp_decoded : @v_response D LDecoded (@other_name D) rsp = true. Proof. vm_compute. reflexivity. Qed.
Lemma rsp_read : @v_response D LDecoded (@other_read D) rsp = true. Proof. vm_compute. reflexivity. Qed.
Lemma grt_decoded : @v_greeting D LDecoded (@other_name D) grt = true. Proof. vm_compute. reflexivity. Qed.
Lemma D_A : more D A. Proof. unfold more. cbn. tauto. Qed.
Lemma D_strict : same_extensions D (strict D). Proof. unfold same_extensions. cbn. tauto. Qed.
Lemma strict_D : same_extensions (strict D) D. Proof. unfold same_extensions. cbn. tauto. Qed.
Lemma strict_more_D : more (strict D) D. Proof. unfold more. cbn. intuition discriminate. Qed.
Lemma cmd_strict : @decode_command (strict D) (cmd_bytes ++ more_bytes) = Decoded more_bytes cmd. Proof. vm_compute. reflexivity. Qed.
(** [strict D] but for the space after the last capability *)
Definition nearly_strict : features := Features false false false false false false false false false false false
  false true false false false false false false false false.
Lemma rsp_strict : @decode_response nearly_strict (rsp_bytes ++ more_bytes) = Decoded more_bytes rsp. Proof. vm_compute. reflexivity. Qed.
Lemma grt_strict : @decode_greeting nearly_strict (grt_bytes ++ more_bytes) = Decoded more_bytes grt. Proof. vm_compute. reflexivity. Qed.
Lemma nearly_strict_D : same_extensions nearly_strict D. Proof. unfold same_extensions. cbn. tauto. Qed.
Lemma nearly_strict_more_D : more nearly_strict D. Proof. unfold more. cbn. intuition discriminate. Qed.
Lemma nearly_strict_space : no_new_trailing_space nearly_strict D. Proof. now unfold no_new_trailing_space. Qed.
Lemma strict_space : no_new_trailing_space D (strict D). Proof. now unfold no_new_trailing_space. Qed.
(** What the grammar says of them *)
Lemma cmd_G : @G_command D cmd_bytes cmd.
Proof. destruct (@C44_command D _ _ _ cmd_D) as (t & E & G). apply app_inv_tail in E. now subst t. Qed.
Lemma rsp_G : @G_response D rsp_bytes rsp.
Proof. destruct (@C44_response D _ _ _ rsp_D) as (t & E & G). apply app_inv_tail in E. now subst t. Qed.
Lemma grt_G : @G_greeting D grt_bytes grt.
Proof. destruct (@C44_greeting D _ _ _ grt_D) as (t & E & G). apply app_inv_tail in E. now subst t. Qed.
Lemma aut_G : @G_authenticate_data D aut_bytes aut.
Proof. destruct (@C44_authenticate_data D _ _ _ aut_D) as (t & E & G). apply app_inv_tail in E. now subst t. Qed.
Lemma idl_G : @G_idle_done D idl_bytes tt.
Proof. destruct (@C44_idle_done D _ _ _ idl_D) as (t & E & G). apply app_inv_tail in E. now subst t. Qed.

(** ** C13: what was decoded can be encoded and decoded again *)
Example C13_command_applies := @C13_command D _ _ _ cmd_D.
Example C13_response_partial_applies := @C13_response_partial D _ _ _ rsp_D eq_refl.
Example C13_greeting_applies := @C13_greeting D _ _ _ grt_D.
Example C13_response_iff_applies := @C13_response_iff D _ _ _ rsp_D.

(** ** C09-C12: values *)
Example C09_command_applies := @C09_command D cmd cmd_decoded.
Example C09_command_exact_applies := @C09_command_exact D cmd cmd_exact.
Example C10_response_applies := @C10_response D rsp rsp_decoded eq_refl.
Example C10_response_other_applies := @C10_response_other D rsp rsp_read eq_refl.
Example C11_greeting_applies := @C11_greeting D grt grt_decoded.
Example C09_command_iff_applies := @C09_command_iff D cmd eq_refl.
Example C10_response_iff_applies := @C10_response_iff D rsp eq_refl eq_refl.

(** ** C14, C21, C34, C35: what decoded values satisfy *)
Example C14_command_valid_applies := @C14_command_valid D _ _ _ cmd_D.
Example C14_response_valid_applies := @C14_response_valid D _ _ _ rsp_D.
Example C14_greeting_valid_applies := @C14_greeting_valid D _ _ _ grt_D.
Example C21_search_depth_applies := @C21_search_depth D _ _ _ cmd_D.
Example C21_thread_depth_applies := @C21_thread_depth D _ _ _ rsp_D.
Example C34_decoded_dates_applies := @C34_decoded_dates D _ _ _ cmd_D.
Example C34_decoded_times_applies := @C34_decoded_times D _ _ _ rsp_D.
Example C35_command_applies := @C35_command D _ _ _ cmd_D.
Example C35_response_applies := @C35_response D _ _ _ rsp_D.
Example C35_greeting_applies := @C35_greeting D _ _ _ grt_D.

(** ** C38: injectivity *)
Example C38_command_injective_applies := @C38_command_injective D cmd cmd [] [] cmd_decoded cmd_decoded eq_refl.
Example C38_response_injective_applies := @C38_response_injective D rsp rsp [] [] rsp_decoded eq_refl rsp_decoded eq_refl eq_refl.
Example C38_greeting_injective_applies := @C38_greeting_injective D grt grt [] [] grt_decoded grt_decoded eq_refl.

(** ** C44, C45: the grammar *)
Example C44_command_applies := @C44_command A _ _ _ cmd_A.
Example C44_response_applies := @C44_response A _ _ _ rsp_A.
Example C44_greeting_applies := @C44_greeting A _ _ _ grt_A.
Example C44_authenticate_data_applies := @C44_authenticate_data A _ _ _ aut_A.
Example C44_idle_done_applies := @C44_idle_done A _ _ _ idl_A.
Example C45_command_applies := @C45_command D _ _ more_bytes cmd_G.
Example C45_response_applies := @C45_response D _ _ more_bytes rsp_G.
Example C45_greeting_applies := @C45_greeting D _ _ more_bytes grt_G.
Example C45_authenticate_data_applies := @C45_authenticate_data D _ _ more_bytes aut_G.
Example C45_idle_done_applies := @C45_idle_done D _ _ more_bytes idl_G.
Example C45_unambiguous_applies := @C45_unambiguous D _ _ _ _ [] [] cmd_G cmd_G eq_refl.
Example C45_unambiguous_greeting_applies := @C45_unambiguous_greeting D _ _ _ _ [] [] grt_G grt_G eq_refl.
Example C45_unambiguous_response_applies := @C45_unambiguous_response D _ _ _ _ [] [] rsp_G rsp_G eq_refl.
Example C45_exactly_applies := proj1 (@C45_exactly D _ _ _) cmd_D.
Example C45_exactly_greeting_applies := proj1 (@C45_exactly_greeting D _ _ _) grt_D.
Example C45_exactly_response_applies := proj1 (@C45_exactly_response D _ _ _) rsp_D.
Example C45_exactly_authenticate_data_applies := proj1 (@C45_exactly_authenticate_data D _ _ _) aut_D.
Example C45_exactly_idle_done_applies := proj1 (@C45_exactly_idle_done D _ _ _) idl_D.

(** ** C47: serialisation *)
Example C47_command_applies := @C47_command D cmd cmd_type.
Example C47_response_applies := @C47_response D rsp (@C14_response_valid D _ _ _ rsp_D).
Example C47_greeting_applies := @C47_greeting D grt (@C14_greeting_valid D _ _ _ grt_D).
Example C48_command_applies := @C48_command D _ _ C47_command_applies.
Example C48_response_applies := @C48_response D _ _ C47_response_applies.
Example C48_greeting_applies := @C48_greeting D _ _ C47_greeting_applies.

(** ** C53, C56, C61: sizes and costs *)
Example C53_command_applies := @C53_command D _ _ _ cmd_D.
Example C53_authenticate_data_applies := @C53_authenticate_data D _ _ _ aut_D.
Example C53_greeting_applies := @C53_greeting D _ _ _ grt_D.
Example C53_response_applies := @C53_response D _ _ _ rsp_D.
Example C56_pays_command_applies := @C56_pays_command D _ _ _ cmd_D.
Example C56_pays_response_applies := @C56_pays_response D _ _ _ rsp_D.
Example C56_pays_greeting_applies := @C56_pays_greeting D _ _ _ grt_D.
Example C61_command_applies := @C61_command D _ _ _ cmd_D.
Example C61_authenticate_data_applies := @C61_authenticate_data D _ _ _ aut_D.
Example C61_idle_done_applies := @C61_idle_done D _ _ _ idl_D.
Example C61_greeting_applies := @C61_greeting D _ _ _ grt_D.
Example C61_response_applies := @C61_response D _ _ _ rsp_D.

(** ** C59: message kinds *)
Example C59_command_applies := @C59_command D _ _ _ cmd_D.
Example C59_response_applies := @C59_response D _ _ _ rsp_D.
Example C59_greeting_applies := @C59_greeting D _ _ _ grt_D.
Example C59_response_greeting_applies := @C59_response_greeting D _ _ _ rsp_D.
Example C59_authenticate_data_applies := @C59_authenticate_data D _ _ _ aut_D.
Example C59_idle_done_applies := @C59_idle_done D _ _ _ idl_D.
Example C59_authenticate_data_idle_applies := @C59_authenticate_data_idle D _ _ _ aut_D.

(** ** C60: more features *)
Example C60_command_applies := C60_command D A _ _ _ D_A cmd_D.
Example C60_response_applies := C60_response D A _ _ _ D_A rsp_D.
Example C60_greeting_applies := C60_greeting D A _ _ _ D_A grt_D.
Example C60_authenticate_data_applies := C60_authenticate_data D A _ _ _ D_A aut_D.
Example C60_idle_done_applies := C60_idle_done D A _ _ _ D_A idl_D.
Example C60_command_same_applies := C60_command_same D A _ _ cmd D_A eq_refl cmd_D.
Example C60_response_same_applies := C60_response_same D A _ _ rsp D_A eq_refl rsp_D.
Example C60_greeting_same_applies := C60_greeting_same D A _ _ grt D_A eq_refl grt_D.
Example C60_command_peers_applies := C60_command_peers D A cmd D_A cmd_decoded eq_refl.
Example C60_response_peers_applies := C60_response_peers D A rsp D_A rsp_decoded eq_refl eq_refl.
Example C60_greeting_peers_applies := C60_greeting_peers D A grt D_A grt_decoded eq_refl.

(** ** C62: quirks *)
Example C62_command_meaning_applies := C62_command_meaning _ _ _ _ _ strict_D strict_more_D cmd_strict.
Example C62_response_meaning_applies := C62_response_meaning _ _ _ _ _ nearly_strict_D nearly_strict_more_D nearly_strict_space rsp_strict.
Example C62_greeting_meaning_applies := C62_greeting_meaning _ _ _ _ _ nearly_strict_D nearly_strict_more_D nearly_strict_space grt_strict.
Example C62_command_peers_applies := C62_command_peers _ _ _ D_strict cmd_decoded.
Example C62_response_peers_applies := C62_response_peers _ _ rsp D_strict rsp_decoded eq_refl.
Example C62_greeting_peers_applies := C62_greeting_peers _ _ _ D_strict grt_decoded.
Example C62_command_repaired_applies := C62_command_repaired _ _ _ _ _ D_strict cmd_D.
Example C62_response_repaired_applies := C62_response_repaired _ _ _ _ rsp D_strict strict_space rsp_D eq_refl.
Example C62_greeting_repaired_applies := C62_greeting_repaired _ _ _ _ _ D_strict strict_space grt_D.
Example C62_response_strict_applies := C62_response_strict _ _ _ rsp rsp_A eq_refl.
Example C62_greeting_strict_applies := C62_greeting_strict _ _ _ _ grt_A.

(** ** C63: lines of text *)
Example C63_command_applies := C63_command _ _ _ _ (eq_refl : @ext_utf8 D = false) cmd_D.
Example C63_authenticate_data_applies := C63_authenticate_data _ _ _ _ aut_D.
Example C63_idle_done_applies := C63_idle_done _ _ _ _ idl_D.
Example C63_greeting_lines_applies := C63_greeting_lines _ _ _ _ (eq_refl : @ext_utf8 D = false) grt_D.
Example C63_response_lines_applies := C63_response_lines _ _ _ _ (eq_refl : @ext_utf8 D = false) rsp_D.
Example C63_greeting_applies := C63_greeting _ _ _ grt (eq_refl : @ext_utf8 D = false) (Forall_nil TEXT_CHAR) grt_D.
Example C63_response_applies := C63_response _ _ _ rsp (eq_refl : @ext_utf8 D = false) (Forall_nil TEXT_CHAR) rsp_D.
Example C63_command_sent_applies := C63_command_sent D _ eq_refl cmd_type.
Example C63_greeting_sent_applies := C63_greeting_sent D grt eq_refl eq_refl (Forall_nil TEXT_CHAR).
Example C63_response_sent_applies := C63_response_sent D rsp eq_refl eq_refl (Forall_nil TEXT_CHAR).

(** ** C17 to C19: incomplete messages *)
Lemma take_strict n m : n < length m -> strict_prefix (firstn n m) m.
Proof.
  intros L. destruct (skipn n m) as [| x y] eqn:E.
  - apply (f_equal (@length byte)) in E. rewrite skipn_length in E. cbn in E. lia.
  - exists x, y. rewrite <- E. now rewrite firstn_skipn.
Qed.
Lemma cmd_cut : strict_prefix (firstn 20 (dump_fragments (@encode_command D cmd))) (dump_fragments (@encode_command D cmd)).
Proof. apply take_strict. vm_compute. repeat constructor. Qed.
Lemma rsp_cut : strict_prefix (firstn 20 (dump_fragments (@encode_response D rsp))) (dump_fragments (@encode_response D rsp)).
Proof. apply take_strict. vm_compute. repeat constructor. Qed.
Lemma grt_cut : strict_prefix (firstn 20 (dump_fragments (@encode_greeting D grt))) (dump_fragments (@encode_greeting D grt)).
Proof. apply take_strict. vm_compute. repeat constructor. Qed.
Lemma aut_cut : strict_prefix (firstn 6 (dump_fragments (encode_authenticate_data aut))) (dump_fragments (encode_authenticate_data aut)).
Proof. apply take_strict. vm_compute. repeat constructor. Qed.
Lemma idl_cut : strict_prefix (firstn 5 (dump_fragments (encode_idle_done tt))) (dump_fragments (encode_idle_done tt)).
Proof. apply take_strict. vm_compute. repeat constructor. Qed.
Example C17_command_prefix_applies := @C17_command_prefix D cmd _ cmd_decoded cmd_cut.
Example C17_response_prefix_applies := @C17_response_prefix D rsp _ rsp_decoded eq_refl rsp_cut.
Example C17_greeting_prefix_applies := @C17_greeting_prefix D grt _ grt_decoded grt_cut.
Example C17_authenticate_data_prefix_applies := @C17_authenticate_data_prefix D aut _ aut_cut.
Example C17_idle_done_prefix_applies := @C17_idle_done_prefix D _ idl_cut.
Lemma cmd_fragments : exists before after, @encode_command D cmd = before ++ FrLiteral (bs "x" ++ [bCR; bLF]) Sync :: after.
Proof. do 2 eexists. exact (eq_refl : @encode_command D cmd = [_] ++ FrLiteral (bs "x" ++ [bCR; bLF]) Sync :: _). Qed.
Lemma rsp_fragments : exists before after, @encode_response D rsp = before ++ FrLiteral (bs "ab") Sync :: after.
Proof. do 2 eexists. exact (eq_refl : @encode_response D rsp = [_] ++ FrLiteral (bs "ab") Sync :: _). Qed.
Example C19_command_literal_applies : exists before, @decode_command D (dump_fragments before) = Error (CmdLiteralFound (bs "a1") 3 Sync).
Proof. destruct cmd_fragments as (b & a & E). exists b. exact (@C19_command_literal D cmd b _ _ a cmd_decoded E). Qed.
Example C19_response_literal_applies : exists before, @decode_response D (dump_fragments before) = Error (RspLiteralFound 2).
Proof. destruct rsp_fragments as (b & a & E). exists b. exact (@C19_response_literal D rsp b _ _ a rsp_decoded eq_refl E). Qed.

(** ** C09 to C11: what decoding never returns *)
Example C09_scope_applies := @C09_scope D (mkCommand (bs "a") (CSearch None [Nat.iter 9 KNot KAll] false)) [] [] eq_refl.
Example C10_scope_applies := @C10_scope D (RStatus (StUntagged (mkStatusBody SKOk None (bs "[ALERT] x")))) [] [] eq_refl.
Example C11_scope_applies := @C11_scope D (mkGreeting GKOk None (bs "[ALERT] x")) [] [] eq_refl.
