(** C68: the result of decoding does not depend on the kind of build.

    The tests of the project run with debug assertions, programs ship without. Whatever is
    proved of the decoders of Decode.v holds in both. *)

From Verif Require Import Bytes Dec Features Nom Types Utf8 Conv Base64 Date ParseCore ParseBody
  ParseCmd ParseResp Decode Valid DecodeProps Fragmentizer Profile ProfileFacts.

Notation any_other := (fun _ _ : bytes => true).

Section Props.
Context {F : features} {B : build}.

Theorem C68_build_independent : forall i,
  b_decode_command i = decode_command i /\
  b_decode_response i = decode_response i /\
  b_decode_greeting i = decode_greeting i /\
  b_decode_authenticate_data i = decode_authenticate_data i /\
  b_decode_idle_done i = decode_idle_done i.
Proof.
  intros i. destruct (C20_no_panic i) as (Hc & Hr & Hg & _). split; [| split; [| split]].
  - unfold b_decode_command. destruct (same_command i) as [E | E]; [| now rewrite E].
    exfalso. apply Hc. unfold decode_command. now rewrite E.
  - unfold b_decode_response. destruct (same_response i) as [E | E]; [| now rewrite E].
    exfalso. apply Hr. unfold decode_response. now rewrite E.
  - unfold b_decode_greeting, simple_decode. destruct (same_greeting i) as [E | E].
    + exfalso. apply Hg. unfold decode_greeting, simple_decode. now rewrite E.
    + unfold decode_greeting, simple_decode. now rewrite E.
  - split; reflexivity.
Qed.

(** a receive buffer of either build, whatever it holds *)
Theorem C68_receive : forall s,
  decode_message b_decode_command s = decode_message decode_command s /\
  decode_message b_decode_response s = decode_message decode_response s /\
  decode_message b_decode_greeting s = decode_message decode_greeting s.
Proof.
  intros s. unfold decode_message.
  destruct (C68_build_independent (buffer s)) as (Hc & Hr & Hg & _).
  now rewrite Hc, Hr, Hg.
Qed.

(** although no check of a release build would stop them, no invalid value gets out *)
Theorem C68_valid : forall i,
  (forall r c, b_decode_command i = Decoded r c -> v_command LType c = true) /\
  (forall r m, b_decode_response i = Decoded r m -> v_response LType any_other m = true) /\
  (forall r g, b_decode_greeting i = Decoded r g -> v_greeting LType any_other g = true) /\
  b_decode_command i <> Panic /\ b_decode_response i <> Panic /\ b_decode_greeting i <> Panic.
Proof.
  intros i. destruct (C68_build_independent i) as (Hc & Hr & Hg & _). rewrite Hc, Hr, Hg.
  destruct (C20_no_panic i) as (Nc & Nr & Ng & _).
  repeat split; try assumption; intros r x.
  - apply C14_command_valid.
  - apply C14_response_valid.
  - apply C14_greeting_valid.
Qed.
End Props.

(** in the words of the property *)
Theorem C68_debug_release : forall (F : features) i,
  @b_decode_command F debug i = @b_decode_command F release i /\
  @b_decode_response F debug i = @b_decode_response F release i /\
  @b_decode_greeting F debug i = @b_decode_greeting F release i.
Proof.
  intros F i. destruct (@C68_build_independent F debug i) as (Hc & Hr & Hg & _).
  destruct (@C68_build_independent F release i) as (Kc & Kr & Kg & _).
  now rewrite Hc, Hr, Hg, Kc, Kr, Kg.
Qed.

(** A release build does construct values that a debug build refuses, ... *)
Example C68_builds_differ :
  @unvalidated debug _ atom_ok (bs "a b") = None /\
  @unvalidated release _ atom_ok (bs "a b") = Some (bs "a b").
Proof. split; vm_compute; reflexivity. Qed.
(** ... and so a parser that takes too much behaves differently. *)
Example C68_too_wide :
  let p (B : build) := b_validated atom_ok (take_while1 is_text_char) in
  p debug (bs "a b" ++ crlf_bytes) = RPanic /\
  p release (bs "a b" ++ crlf_bytes) = ROk crlf_bytes (bs "a b").
Proof. split; vm_compute; reflexivity. Qed.
Example C68_case :
  let i := bs "a7 LOGIN bob ""x\""y""" ++ crlf_bytes in
  exists c, @b_decode_command default_features release i = Decoded [] c /\
  cmd_tag c = bs "a7".
Proof. eexists. split; vm_compute; reflexivity. Qed.
Example C68_case_response : exists m,
  @b_decode_response default_features release
    (bs "* 1 FETCH (INTERNALDATE "" 1-Jul-2020 01:02:03 +0000"" UID 7)" ++ crlf_bytes) = Decoded [] m.
Proof. eexists. vm_compute; reflexivity. Qed.

Print Assumptions C68_build_independent.
Print Assumptions C68_receive.
Print Assumptions C68_valid.
Print Assumptions C68_debug_release.
