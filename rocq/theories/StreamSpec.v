(** What the properties about encoder and fragmentizer together (C23, C24) talk about. *)

From Verif Require Import Bytes Features Nom Types EncodeCtx EncodeApi Decode Fragmentizer FragSpec.

(** The fragments a receiver must see, given the encoder's: a line is followed by the literal
    it announces, except for the last one. *)
Fixpoint as_seen (l : list fragment) : list frag :=
  match l with
  | [] => []
  | FrLine s :: r =>
    Line s (match r with FrLiteral d m :: _ => Some (mkAnn m (lenN d)) | _ => None end) CrLf
      :: as_seen r
  | FrLiteral d _ :: r => Literal d :: as_seen r
  end.

(** No line of the message has an LF before its end. *)
Definition clean_lines (l : list fragment) : Prop :=
  Forall (fun f => match f with FrLine s => is_line s | FrLiteral _ _ => True end) l.

(** A text that does not itself end in the announcement of a literal *)
Definition quiet (text : bytes) : Prop := forall a, ~ announces (text ++ [bCR; bLF]) a.
Definition quiet_greeting (g : greeting) : Prop := quiet (gr_text g).
Definition quiet_response (r : response) : Prop :=
  match r with
  | RStatus (StUntagged b) | RStatus (StTagged _ b) => quiet (sb_text b)
  | RStatus (StBye _ t) => quiet t
  | RContinue (CRBasic _ t) => quiet t
  | _ => True
  end.

(** What the receiver of a message must get, if the bytes [m] decode to [x]: [x], unless they are
    more than the limit. *)
Definition received {E A} (max : option N) (m : bytes) (x : A) : decode_message_result E A :=
  if too_long max m then DMTooLong (limited max m) else DMOk x.

(** A receiver: after each call to [progress] that completes a message it decodes the message. *)
Section Receive.
Context {E A : Type} (dec : bytes -> outcome E A).
Definition receive_step (s : fragmentizer) (o : call) : fragmentizer * list (decode_message_result E A) :=
  match o with
  | Progress =>
    let '(s', f) := progress s in
    (s', match f with
         | Some _ => if is_message_complete s' then [decode_message dec s'] else []
         | None => []
         end)
  | o => (fst (step s o), [])
  end.
Fixpoint receive (s : fragmentizer) (ops : list call) : fragmentizer * list (decode_message_result E A) :=
  match ops with
  | [] => (s, [])
  | o :: ops' =>
    let '(s1, r1) := receive_step s o in
    let '(s2, r2) := receive s1 ops' in (s2, r1 ++ r2)
  end.
(** ... until [progress] finds no more fragments *)
Inductive receive_rest : fragmentizer -> list (decode_message_result E A) -> Prop :=
| receive_none s s' : progress s = (s', None) -> receive_rest s []
| receive_some s s1 f r :
    progress s = (s1, Some f) -> receive_rest s1 r ->
    receive_rest s ((if is_message_complete s1 then [decode_message dec s1] else []) ++ r).
Definition receives (s : fragmentizer) (ops : list call) (r : list (decode_message_result E A)) : Prop :=
  exists r2, receive_rest (fst (receive s ops)) r2 /\ r = snd (receive s ops) ++ r2.
End Receive.
