(** C46: secrets do not reach debug output.

    A program built without debug assertions prints the same text ([{:?}] or [{:#?}]) for two commands that
    differ only in the password of LOGIN or in the initial response of AUTHENTICATE, for two authenticate data
    lines, and for two errors of [decode_message] that differ only in such secrets or in message bytes. *)

From Verif Require Import Bytes Dec Features Types Ctors Decode EncodeCtx Encode EncodeApi Fragmentizer Debug.

(** Equal except for secrets; whether there is an initial response is not a secret. *)
Inductive public_body : command_body -> command_body -> Prop :=
| pub_login u p p' : public_body (CLogin u p) (CLogin u p')
| pub_authenticate m s s' : public_body (CAuthenticate m (Some s)) (CAuthenticate m (Some s'))
| pub_same c : public_body c c.
Definition public_command (c c' : command) : Prop := cmd_tag c = cmd_tag c' /\ public_body (cmd_body c) (cmd_body c').
Inductive public_auth_data : authenticate_data -> authenticate_data -> Prop :=
| pub_continue d d' : public_auth_data (ADContinue d) (ADContinue d')
| pub_cancel : public_auth_data ADCancel ADCancel.
(** Results of [decode_message]: all message bytes are secret. *)
Inductive public_result {E A} (R : A -> A -> Prop) : decode_message_result E A -> decode_message_result E A -> Prop :=
| pub_ok m m' : R m m' -> public_result R (DMOk m) (DMOk m')
| pub_failure e : public_result R (DMFailure e) (DMFailure e)
| pub_remainder m m' s s' : R m m' -> public_result R (DMRemainder m s) (DMRemainder m' s')
| pub_too_long s s' : public_result R (DMTooLong s) (DMTooLong s')
| pub_poisoned s s' : public_result R (DMPoisoned s) (DMPoisoned s')
| pub_panic : public_result R DMPanic DMPanic.

Definition release : bool := false.

Lemma command_debug_public str_debug body_debug c c' : public_command c c' ->
  command_debug release str_debug body_debug c = command_debug release str_debug body_debug c'.
Proof.
  destruct c as [t b], c' as [t' b']. intros [T B]. cbn in T, B. subst t'. unfold command_debug. cbn [cmd_tag cmd_body].
  now destruct B.
Qed.
Theorem C46_command : forall str_debug body_debug alternate c c', public_command c c' ->
  render alternate (command_debug release str_debug body_debug c) =
  render alternate (command_debug release str_debug body_debug c').
Proof. intros. f_equal. now apply command_debug_public. Qed.
Theorem C46_authenticate_data : forall alternate a a', public_auth_data a a' ->
  render alternate (authenticate_data_debug release a) = render alternate (authenticate_data_debug release a').
Proof. intros alternate a a' H. now destruct H. Qed.
Theorem C46_decode_message : forall str_debug body_debug alternate r r', public_result public_command r r' ->
  option_map (render alternate) (decode_message_debug release (command_error_debug str_debug)
                                   (command_debug release str_debug body_debug) r) =
  option_map (render alternate) (decode_message_debug release (command_error_debug str_debug)
                                   (command_debug release str_debug body_debug) r').
Proof.
  intros str_debug body_debug alternate r r' H. destruct H as [| | m m' s s' M | | |]; try reflexivity.
  cbn [decode_message_debug]. now rewrite (command_debug_public _ _ _ _ M).
Qed.
Theorem C46_decode_authenticate_data : forall alternate r r', public_result public_auth_data r r' ->
  option_map (render alternate) (decode_message_debug release simple_error_debug (authenticate_data_debug release) r) =
  option_map (render alternate) (decode_message_debug release simple_error_debug (authenticate_data_debug release) r').
Proof.
  intros alternate r r' H. destruct H as [| | m m' s s' M | | |]; try reflexivity. now destruct M.
Qed.

(** Not so for the fragmentizer itself and for encoded messages: after the same calls for two commands that
    differ only in the password their outputs differ, since the bytes are printed. *)
Definition C46_line (p : bytes) : bytes := bs "A LOGIN alice " ++ p ++ [bCR; bLF].
Theorem C46_fragmentizer_refuted : exists p p' alternate,
  let received p := fst (progress (enqueue (frag_new (Some 100%N)) (C46_line p))) in
  length p = length p' /\
  render alternate (fragmentizer_debug (received p)) <> render alternate (fragmentizer_debug (received p')).
Proof. exists (bs "xyz"), (bs "abc"), false. split; [reflexivity |]. vm_compute. discriminate. Qed.
Theorem C46_encoded_refuted : exists c c' alternate, public_command c c' /\
  render alternate (encoded_debug (@encode_command default_features c)) <>
  render alternate (encoded_debug (@encode_command default_features c')).
Proof.
  exists (mkCommand (bs "A") (CLogin (AAtom (bs "alice")) (AAtom (bs "xyz")))),
    (mkCommand (bs "A") (CLogin (AAtom (bs "alice")) (AAtom (bs "abc")))), false.
  split; [split; constructor |]. vm_compute. discriminate.
Qed.
Example C46_fragmentizer_output :
  compact (fragmentizer_debug (fst (progress (enqueue (frag_new (Some 9%N)) (bs "A1 {2}" ++ [bCR; bLF] ++ bs "x"))))) =
  bs "Fragmentizer { unparsed_buffer: [120], max_message_size: Some(9), max_message_size_exceeded: false, message_poisoned: false, message_buffer: [65, 49, 32, 123, 50, 125, 13, 10], parser: Some(Literal(LiteralParser { start: 8, end: 8, remaining: 2 })) }".
Proof. vm_compute. reflexivity. Qed.

(** Concrete outputs, with the strings printed between double quotes *)
Definition C46_str (s : bytes) : bytes := [bDQ] ++ s ++ [bDQ].
Definition C46_login (p : bytes) : command := mkCommand (bs "A") (CLogin (AAtom (bs "alice")) (AString (IQuoted p))).
Example C46_login_redacted : public_command (C46_login (bs "xyz 123")) (C46_login (bs "other")) /\
  compact (command_debug release C46_str (fun _ => DText []) (C46_login (bs "xyz 123"))) =
  bs "Command { tag: Tag(""A""), body: Login { username: Atom(AtomExt(""alice"")), password: /* REDACTED */ } }".
Proof. split; [split; constructor | vm_compute; reflexivity]. Qed.
Example C46_login_pretty :
  pretty (command_debug release C46_str (fun _ => DText []) (C46_login (bs "xyz 123"))) =
  bs "Command {
    tag: Tag(""A""),
    body: Login {
        username: Atom(
            AtomExt(""alice""),
        ),
        password: /* REDACTED */,
    },
}".
Proof. vm_compute. reflexivity. Qed.
(** With debug assertions the secret is printed: the hypothesis on the build is needed. *)
Example C46_debug_build :
  compact (command_debug true C46_str (fun _ => DText []) (C46_login (bs "xyz 123"))) =
  bs "Command { tag: Tag(""A""), body: Login { username: Atom(AtomExt(""alice"")), password: String(Quoted(Quoted(""xyz 123""))) } }" /\
  compact (authenticate_data_debug true (ADContinue (bs "xyz"))) = bs "Continue([120, 121, 122])".
Proof. split; vm_compute; reflexivity. Qed.
Example C46_remainder : public_result (E := command_error) public_command
    (DMRemainder (C46_login (bs "a")) (bs "secret")) (DMRemainder (C46_login (bs "b")) []) /\
  option_map compact (decode_message_debug release (command_error_debug C46_str)
    (command_debug release C46_str (fun _ => DText [])) (DMTooLong (bs "A LOGIN alice pa"))) =
  Some (bs "MessageTooLong { initial: /* REDACTED */ }").
Proof. split; [constructor; split; constructor | vm_compute; reflexivity]. Qed.

Print Assumptions C46_command.
Print Assumptions C46_authenticate_data.
Print Assumptions C46_decode_message.
Print Assumptions C46_decode_authenticate_data.
Print Assumptions C46_fragmentizer_refuted.
Print Assumptions C46_encoded_refuted.
