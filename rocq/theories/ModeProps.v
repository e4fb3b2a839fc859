(** C39: literal modes follow the value.

    [in_modes_command g c] is the command [c] with the mode [m] of every literal in it replaced by
    [g m] (Traverse.v), everything else unchanged. [remoded g fs fs'] (ModeFacts.v) says what
    happens to the encoding: only the modes of the literal fragments and their announcements
    (an announcement is the text ["{n}"] or ["{n+}"], after ["~"] for a literal8, that ends the line before
    the literal) change. That decoding preserves the modes is part of C09, C10 and C13: the decoded
    value is the encoded one, and modes are part of values. *)

From Verif Require Import Bytes BytesFacts Dec Features Nom Types EncodeCtx Encode EncodeFacts EncodeApi Decode
  Valid RtFacts RoundTripSpec EncFragFacts RoundTripProps Traverse ModeFacts.
Open Scope nat_scope.

Definition in_modes_command (g : lit_mode -> lit_mode) : command -> command := x_command (fun b => b) g.
Definition in_modes_response (g : lit_mode -> lit_mode) : response -> response := x_response (fun b => b) g.

Section Modes.
Context {F : features}.

Theorem C39_command : forall g c,
  remoded g (encode_command c) (encode_command (in_modes_command g c)).
Proof. intros g c. unfold encode_command, in_modes_command. rewrite mo_command. apply fragments_remoded. Qed.
Theorem C39_response : forall g r,
  remoded g (encode_response r) (encode_response (in_modes_response g r)).
Proof. intros g r. unfold encode_response, in_modes_response. rewrite mo_response. apply fragments_remoded. Qed.
(** Greetings, authenticate data and IDLE done contain no literals. *)
Definition no_literals (fs : list fragment) : Prop := forall d m, ~ In (FrLiteral d m) fs.
Lemma W_no_literals s : no_literals (fragments (W s)).
Proof.
  intros d m. rewrite fragments_frags.
  assert (K : forall acc, ~ In (FrLiteral d m) (frags acc (W s))).
  { induction s as [| b s IH]; intros acc; cbn; [| apply IH].
    destruct acc; cbn; [tauto | intros [H | []]; discriminate]. }
  apply K.
Qed.
Lemma remoded_no_literals fs : (forall g, remoded g fs fs) -> no_literals fs.
Proof.
  intros R d m H. specialize (R (fun m => match m with Sync => NonSync | NonSync => Sync end)).
  inversion R as [| l | l is8 m0 d0 fs0 fs0' R0]; subst; [contradiction | |].
  - destruct H as [H | []]. discriminate.
  - destruct m0; discriminate.
Qed.
Theorem C39_no_literals :
  (forall g, no_literals (encode_greeting g)) /\ (forall a, no_literals (encode_authenticate_data a)) /\
  no_literals (encode_idle_done tt).
Proof.
  split; [| split].
  - intros g. apply remoded_no_literals. intros k. unfold encode_greeting.
    assert (E : map (op_mode k) (e_greeting g) = e_greeting g).
    { rewrite <- mo_greeting. f_equal. destruct g as [gk gc gt]. unfold x_greeting. cbn.
      now rewrite x_str_id, (id_omap _ _ x_code_id). }
    rewrite <- E at 2. apply fragments_remoded.
  - intros [d |]; unfold encode_authenticate_data; cbn [e_authenticate_data]; unfold e_crlf;
      rewrite <- W_app; apply W_no_literals.
  - apply (W_no_literals (bs "DONE" ++ [bCR; bLF])).
Qed.
End Modes.

(** The hypothesis-free theorems say something about concrete messages: *)
Definition C39_sample (m : lit_mode) : command :=
  mkCommand (bs "A") (CLogin (AString (ILiteral (mkLit (bs "alice") m))) (AAtom (bs "pw"))).
Example C39_sample_sync : @encode_command default_features (C39_sample Sync) =
  [FrLine (bs "A LOGIN {5}" ++ [bCR; bLF]); FrLiteral (bs "alice") Sync; FrLine (bs " pw" ++ [bCR; bLF])].
Proof. reflexivity. Qed.
Example C39_sample_nonsync :
  in_modes_command (fun _ => NonSync) (C39_sample Sync) = C39_sample NonSync /\
  @encode_command default_features (C39_sample NonSync) =
  [FrLine (bs "A LOGIN {5+}" ++ [bCR; bLF]); FrLiteral (bs "alice") NonSync; FrLine (bs " pw" ++ [bCR; bLF])].
Proof. split; reflexivity. Qed.
Definition C39_sample8 (m : lit_mode) : command :=
  mkCommand (bs "A") (CAppend MInbox [] None (LLiteral8 (mkLit8 (bs "xyz") m))).
Example C39_sample8_nonsync :
  in_modes_command (fun _ => NonSync) (C39_sample8 Sync) = C39_sample8 NonSync /\
  @encode_command default_features (C39_sample8 NonSync) =
  [FrLine (bs "A APPEND INBOX ~{3+}" ++ [bCR; bLF]); FrLiteral (bs "xyz") NonSync; FrLine [bCR; bLF]].
Proof. split; reflexivity. Qed.

Print Assumptions C39_command.
Print Assumptions C39_response.
Print Assumptions C39_no_literals.
