(** What property C64 talks about: relays, which decode a message and pass its encoding on. *)

From Verif Require Import Bytes Features Nom Types EncodeCtx EncodeApi Decode StrictSpec.

(** A relay receives [i], exactly one message, and sends [o]. *)
Definition relay {E A} (dec : bytes -> outcome E A) (enc : A -> list fragment) (i o : bytes) : Prop :=
  exists m, dec i = Decoded [] m /\ o = dump_fragments (enc m).
(** Relays of different builds of the crate *)
Definition relay_command (F : features) : bytes -> bytes -> Prop := relay (@decode_command F) (@encode_command F).
Definition relay_response (F : features) : bytes -> bytes -> Prop := relay (@decode_response F) (@encode_response F).
Definition relay_greeting (F : features) : bytes -> bytes -> Prop := relay (@decode_greeting F) (@encode_greeting F).

(** [relays r [F1; F2; ...] i o]: the relay [F1] receives [i], the next one what this one sends, and the
    last one sends [o]. *)
Inductive relays (r : features -> bytes -> bytes -> Prop) : list features -> bytes -> bytes -> Prop :=
| relays_one F i o : r F i o -> relays r [F] i o
| relays_next F Fs i j o : r F i j -> relays r Fs j o -> relays r (F :: Fs) i o.

(** All relays have the same extensions as the first one. *)
Definition alike (F : features) (Fs : list features) : Prop := forall G, In G Fs -> same_extensions F G.
(** ... and none tolerates a space after the last capability unless the first one does. *)
Definition alike_spaces (F : features) (Fs : list features) : Prop :=
  forall G, In G Fs -> same_extensions F G /\ no_new_trailing_space F G.

(** No relay normalises sequence sets, none turns an empty ID list into NIL. *)
Definition writes_as_given (Fs : list features) : Prop := forall G, In G Fs ->
  @quirk_always_normalize_sequence_sets G = false /\ @quirk_id_empty_to_nil G = false.
