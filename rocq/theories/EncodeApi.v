(** The public encoders: imap-codec/src/codec/encode.rs:232-253. *)

From Verif Require Import Bytes Features Nom Types EncodeCtx Encode.

Section EncodeApi.
Context {F : features}.
(* codec/encode.rs:249-253: the five implementations of [Encoder::encode]; the result is the
   list of fragments of [Encoded] (codec/encode.rs:124-156), [Encoded::dump] is
   [dump_fragments]. [encode_ctx] never returns an error (writing to a [Vec] succeeds), so
   the [unwrap] in line 240 is not modelled. *)
Definition encode_greeting (g : greeting) : list fragment := fragments (e_greeting g).
Definition encode_command (c : command) : list fragment := fragments (e_command c).
Definition encode_authenticate_data (a : authenticate_data) : list fragment :=
  fragments (e_authenticate_data a).
Definition encode_response (r : response) : list fragment := fragments (e_response r).
Definition encode_idle_done (_ : unit) : list fragment := fragments e_idle_done.
End EncodeApi.
