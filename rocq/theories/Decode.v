(** The public decoders: imap-codec/src/codec/decode.rs:140-400. *)

From Verif Require Import Bytes Features Nom Types ParseCore ParseCmd ParseResp.

(** [Result<(&[u8], Message), Error>], or a panic *)
Inductive outcome (E A : Type) :=
| Decoded (rest : bytes) (a : A)
| Error (e : E)
| Panic.
Arguments Decoded {E A} rest a.
Arguments Error {E A} e.
Arguments Panic {E A}.

(* codec/decode.rs:140-146 (GreetingDecodeError), 235-241, 284-290 (AuthenticateDataDecodeError,
   IdleDoneDecodeError): the same two variants *)
Inductive simple_error := Incomplete | Failed.
(* codec/decode.rs:158-190 *)
Inductive command_error :=
| CmdIncomplete
| CmdLiteralFound (tag : bytes) (length : N) (mode : lit_mode)
| CmdFailed.
(* codec/decode.rs:253-265 *)
Inductive response_error :=
| RspIncomplete
| RspLiteralFound (length : N)
| RspFailed.

Section Decode.
Context {F : features}.

(* codec/decode.rs:302-316, 368-384, 386-400 *)
Definition simple_decode {A} (p : parser A) (i : bytes) : outcome simple_error A :=
  match p i with
  | ROk r a => Decoded r a
  | RInc => Error Incomplete
  | RErr | RFail _ => Error Failed
  | RPanic => Panic
  end.
(* codec/decode.rs:302-316 *)
Definition decode_greeting : bytes -> outcome simple_error greeting := simple_decode p_greeting.
(* codec/decode.rs:368-384 *)
Definition decode_authenticate_data : bytes -> outcome simple_error authenticate_data :=
  simple_decode p_authenticate_data.
(* codec/decode.rs:386-400 *)
Definition decode_idle_done : bytes -> outcome simple_error unit := simple_decode p_idle_done.

(* codec/decode.rs:318-344; [tag.expect(..)] panics without a tag *)
Definition decode_command (i : bytes) : outcome command_error command :=
  match p_command i with
  | ROk r a => Decoded r a
  | RInc => Error CmdIncomplete
  | RFail (FLit (Some t) n m) => Error (CmdLiteralFound t n m)
  | RFail (FLit None _ _) => Panic
  | RFail FOther | RErr => Error CmdFailed
  | RPanic => Panic
  end.

(* codec/decode.rs:346-366 *)
Definition decode_response (i : bytes) : outcome response_error response :=
  match p_response i with
  | ROk r a => Decoded r a
  | RInc => Error RspIncomplete
  | RFail (FLit _ n _) => Error (RspLiteralFound n)
  | RFail FOther | RErr => Error RspFailed
  | RPanic => Panic
  end.

End Decode.
