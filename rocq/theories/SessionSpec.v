(** What the property about sessions (C41) talks about: what the server must learn from each
    request of the client. *)

From Verif Require Import Bytes Features Nom Types EncodeCtx EncodeApi Decode Valid Fragmentizer FragSpec
  RoundTripSpec StreamSpec Session.

Section Spec.
Context {F : features}.
Variables max lim : N.

(** The client has to ask before it writes a literal that is too large for the server. *)
Definition refused (c : command) : bool :=
  existsb (fun f => match f with FrLiteral d Sync => N.ltb lim (lenN d) | _ => false end) (encode_command c).
(** What follows an accepted command *)
Definition follow_up (r : request) : list event :=
  match cmd_body (rq_command r) with
  | CAuthenticate _ _ => [EvData (DMOk (rq_data r))]
  | CIdle => [EvDone (DMOk tt)]
  | _ => []
  end.
(** What the server must learn from one request: that it has refused a literal; or the command
    ([w_command], C09), or that it was too long, and the data that belongs to it *)
Definition outcome_of (r : request) : list event :=
  let c := rq_command r in
  if refused c then [EvRefused (cmd_tag c)]
  else EvCommand (received (Some max) (dump_fragments (encode_command c)) (w_command c)) :: follow_up r.

(** Requests that a client can make: valid commands, with a tag that fits into a message; the
    commands that change the state of the server, and their data, fit as a whole. *)
Definition fits (m : bytes) : Prop := too_long (Some max) m = false.
Definition acceptable (r : request) : Prop :=
  let c := rq_command r in
  v_command LDecoded c = true /\
  (ext_utf8 = false \/ clean_lines (encode_command c)) /\
  (lenN (cmd_tag c) < max)%N /\
  match cmd_body c with
  | CAuthenticate _ _ | CIdle =>
    fits (dump_fragments (encode_command c)) /\ fits (dump_fragments (data_fragments r))
  | _ => True
  end.

(** Everything is done: there is nothing left to write, to deliver, to answer or to hear. *)
Definition done (n : net) : Prop :=
  n_todo n = [] /\ n_phase n = Ready /\ n_up n = [] /\ n_down n = [] /\ sv_blocked (n_server n) = true.
End Spec.
