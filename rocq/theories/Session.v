(** imap-codec/examples/server.rs: the server loop, and the client of the documentation of
    [Encoder] (imap-codec/src/codec/encode.rs:1-45), connected by a network.

    Simplifications: what the example prints is a list of replies (to the client) and of events
    (what it received); the two limits of the example, 10 * 1024 bytes for a message and 1024
    bytes for a synchronising literal, are parameters. *)

From Verif Require Import Bytes Features Nom Types EncodeCtx EncodeApi Decode Fragmentizer.

(* examples/server.rs:18-22 *)
Inductive server_state := AwaitCommand | AwaitData (tag : bytes) | AwaitDone.
(** The lines that are printed with the prefix "S:": a continuation request, examples/server.rs:72,
    110, 120; a tagged BAD, :78; a tagged OK, :138 *)
Inductive reply := Plus | Bad (tag : bytes) | Okay (tag : bytes).
(** What the server learns: the result of [decode_message] in each state, examples/server.rs:104,
    135, 149; a refused literal, :76-84 *)
Inductive event :=
| EvCommand (r : decode_message_result command_error command)
| EvData (r : decode_message_result simple_error authenticate_data)
| EvDone (r : decode_message_result simple_error unit)
| EvRefused (tag : bytes).

Section Server.
Context {F : features}.
(** [Fragmentizer::new(10 * 1024)], examples/server.rs:40; [length <= 1024], :70 *)
Variables max lim : N.

(** What happens after [progress] has returned a fragment, examples/server.rs:59-159 *)
Definition react (st : server_state) (s : fragmentizer) (f : fragment_info)
  : fragmentizer * server_state * list reply * list event :=
  match f with
  | FLine _ _ (Some (mkAnn Sync n)) _ =>
    if N.leb n lim then (s, st, [Plus], [])
    else match decode_tag s with
         | Some t => (skip_message s, st, [Bad t], [EvRefused t])
         | None => (poison_message s, st, [], [])
         end
  | _ =>
    if is_message_complete s then
      match st with
      | AwaitCommand =>
        let r := decode_message decode_command s in
        match r with
        | DMOk c =>
          match cmd_body c with
          | CAuthenticate _ _ => (s, AwaitData (cmd_tag c), [Plus], [EvCommand r])
          | CIdle => (s, AwaitDone, [Plus], [EvCommand r])
          | _ => (s, AwaitCommand, [], [EvCommand r])
          end
        | _ => (s, AwaitCommand, [], [EvCommand r])
        end
      | AwaitData t =>
        let r := decode_message decode_authenticate_data s in
        match r with
        | DMOk _ => (s, AwaitCommand, [Okay t], [EvData r])
        | _ => (s, AwaitData t, [], [EvData r])
        end
      | AwaitDone =>
        let r := decode_message decode_idle_done s in
        match r with
        | DMOk _ => (s, AwaitCommand, [], [EvDone r])
        | _ => (s, AwaitDone, [], [EvDone r])
        end
      end
    else (s, st, [], [])
  end.

(** The server: [sv_blocked] means that [progress] returned nothing and the loop waits in
    [read_more], examples/server.rs:48-57 *)
Record server := mkServer { sv_frag : fragmentizer; sv_state : server_state; sv_blocked : bool }.
Definition server_new : server := mkServer (frag_new (Some max)) AwaitCommand false.
(** One round of the loop, examples/server.rs:46-160 *)
Definition serve (v : server) : server * list reply * list event :=
  let '(s, f) := progress (sv_frag v) in
  match f with
  | None => (mkServer s (sv_state v) true, [], [])
  | Some f =>
    let '(s, st, rs, es) := react (sv_state v) s f in (mkServer s st false, rs, es)
  end.

(** A request of the client: a command, and the data it sends if the command is AUTHENTICATE *)
Record request := mkRequest { rq_command : command; rq_data : authenticate_data }.
Inductive phase :=
| Ready                                          (* between two requests *)
| Writing (r : request) (fs : list fragment)     (* the fragments of the command to be written *)
| WaitLiteral (r : request) (fs : list fragment) (* for the permission to write a literal *)
| WaitPlus (r : request)                         (* AUTHENTICATE or IDLE has been written *)
| WritingData (r : request) (fs : list fragment) (* the data, or DONE *)
| WaitOk (r : request)                           (* for the end of AUTHENTICATE *)
| Confused.                                      (* an unexpected reply *)

(** The client waits before each synchronising literal, encode.rs:26-30; it does not wait
    for anything else, except where the server is in another state. *)
Definition finished (r : request) : phase :=
  match cmd_body (rq_command r) with CAuthenticate _ _ | CIdle => WaitPlus r | _ => Ready end.
Definition written (r : request) (fs : list fragment) : phase :=
  match fs with
  | [] => finished r
  | FrLiteral _ Sync :: _ => WaitLiteral r fs
  | _ => Writing r fs
  end.
Definition data_fragments (r : request) : list fragment :=
  match cmd_body (rq_command r) with
  | CIdle => encode_idle_done tt
  | _ => encode_authenticate_data (rq_data r)
  end.
Definition data_written (r : request) (fs : list fragment) : phase :=
  match fs with
  | [] => match cmd_body (rq_command r) with CIdle => Ready | _ => WaitOk r end
  | _ => WritingData r fs
  end.
Definition hears (p : phase) (a : reply) : phase :=
  match p, a with
  | WaitLiteral r fs, Plus => Writing r fs
  | WaitLiteral r fs, Bad t => if beqs t (cmd_tag (rq_command r)) then Ready else Confused
  | WaitPlus r, Plus => WritingData r (data_fragments r)
  | WaitOk r, Okay t => if beqs t (cmd_tag (rq_command r)) then Ready else Confused
  | _, _ => Confused
  end.

(** Client, server and what is under way between them *)
Record net := mkNet {
  n_todo : list request;
  n_phase : phase;
  n_up : bytes;            (* from the client to the server *)
  n_down : list reply;     (* from the server to the client *)
  n_server : server;
  n_log : list event
}.
Definition net_new (rs : list request) : net := mkNet rs Ready [] [] server_new [].

(** Everything that can happen next: any interleaving of client, server and network; bytes
    arrive in chunks of any size. *)
Inductive happens : net -> net -> Prop :=
| happens_next r rs up down sv log :
    happens (mkNet (r :: rs) Ready up down sv log)
            (mkNet rs (Writing r (encode_command (rq_command r))) up down sv log)
| happens_write todo r f fs up down sv log :
    happens (mkNet todo (Writing r (f :: fs)) up down sv log)
            (mkNet todo (written r fs) (up ++ fragment_data f) down sv log)
| happens_write_data todo r f fs up down sv log :
    happens (mkNet todo (WritingData r (f :: fs)) up down sv log)
            (mkNet todo (data_written r fs) (up ++ fragment_data f) down sv log)
| happens_deliver todo p x up down s st log :
    x <> [] ->
    happens (mkNet todo p (x ++ up) down (mkServer s st true) log)
            (mkNet todo p up down (mkServer (enqueue s x) st false) log)
| happens_serve todo p up down s st log sv' rs es :
    serve (mkServer s st false) = (sv', rs, es) ->
    happens (mkNet todo p up down (mkServer s st false) log)
            (mkNet todo p up (down ++ rs) sv' (log ++ es))
| happens_hear todo p up a down sv log :
    happens (mkNet todo p up (a :: down) sv log) (mkNet todo (hears p a) up down sv log).
Inductive reaches (n : net) : net -> Prop :=
| reaches_refl : reaches n n
| reaches_step a b : reaches n a -> happens a b -> reaches n b.

End Server.
