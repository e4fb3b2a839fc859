(** What the properties about decoders and message boundaries (C57) talk about. *)

From Verif Require Import Bytes Features Nom Types Decode Fragmentizer FragSpec.

(** A complete message: lines, each followed by the literal that it announces, up to the first
    line that announces none. *)
Inductive message : bytes -> Prop :=
| message_last l : is_line l -> (forall a, ~ announces l a) -> message l
| message_more l a d m : is_line l -> announces l a -> lenN d = ann_length a -> message m ->
    message (l ++ d ++ m).

(** The input does not begin with a complete message. *)
Definition unfinished (i : bytes) : Prop := forall m rest, i = m ++ rest -> ~ message m.

(** The stream consists of the complete messages [ms] followed by [rest]. *)
Definition messages (stream : bytes) (ms : list bytes) (rest : bytes) : Prop :=
  stream = concat ms ++ rest /\ Forall message ms /\ unfinished rest.

(** What a receiver must get for one message: too long, or what the decoder makes of it. *)
Definition judged {E A} (dec : bytes -> outcome E A) (max : option N) (m : bytes) : decode_message_result E A :=
  if too_long max m then DMTooLong (limited max m)
  else match dec m with
       | Decoded [] x => DMOk x
       | Decoded rest x => DMRemainder x rest
       | Error e => DMFailure e
       | Panic => DMPanic
       end.
(** The same for a decoder that always decides and leaves nothing. *)
Definition decided {E A} (dec : bytes -> outcome E A) (failed : E) (max : option N) (m : bytes) : decode_message_result E A :=
  if too_long max m then DMTooLong (limited max m)
  else match dec m with
       | Decoded _ x => DMOk x
       | _ => DMFailure failed
       end.
(** Decoding straight from a buffer, message after message: the results, and what is left when a
    message does not decode *)
Inductive reading {E A} (dec : bytes -> outcome E A) : bytes -> list A -> bytes -> Prop :=
| reading_end i : reading dec i [] i
| reading_more i r x l rest : dec i = Decoded r x -> reading dec r l rest -> reading dec i (x :: l) rest.

(** The input contains CRLF. *)
Definition has_crlf (x : bytes) : Prop := exists a b, x = a ++ [bCR; bLF] ++ b.
