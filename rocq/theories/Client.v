(** imap-codec/examples/client.rs: the loop of the client that reads a greeting and responses.

    Simplifications: what the example prints is a list of events; the limit of the example,
    10 * 1024 bytes for a message, is a parameter; [read_more] (examples/common/common.rs) returns
    the next chunk, and the run ends when there is none. *)

From Verif Require Import Bytes Features Nom Types Decode Fragmentizer.

(* examples/client.rs:10-13 *)
Inductive client_state := AwaitGreeting | AwaitResponses.
(** What is printed: the result of [decode_message], examples/client.rs:55-67, 70-78 *)
Inductive client_event :=
| EvGreeting (r : decode_message_result simple_error greeting)
| EvResponse (r : decode_message_result response_error response).

Section Client.
Context {F : features}.

(** After [progress] has returned a fragment, examples/client.rs:46-80 *)
Definition client_react (st : client_state) (s : fragmentizer) : client_state * list client_event :=
  if is_message_complete s then
    match st with
    | AwaitGreeting =>
      let r := decode_message decode_greeting s in
      (match r with DMOk _ => AwaitResponses | _ => AwaitGreeting end, [EvGreeting r])
    | AwaitResponses => (AwaitResponses, [EvResponse (decode_message decode_response s)])
    end
  else (st, []).

(** The loop, examples/client.rs:34-81, until it waits for more than [chunks] *)
Inductive client_runs : fragmentizer -> client_state -> list bytes -> list client_event ->
    fragmentizer -> client_state -> Prop :=
| client_waits s s' st : progress s = (s', None) -> client_runs s st [] [] s' st
| client_reads s s' st x chunks es s2 st2 :
    progress s = (s', None) -> client_runs (enqueue s' x) st chunks es s2 st2 ->
    client_runs s st (x :: chunks) es s2 st2
| client_goes_on s s1 f st st1 es chunks es' s2 st2 :
    progress s = (s1, Some f) -> client_react st s1 = (st1, es) ->
    client_runs s1 st1 chunks es' s2 st2 -> client_runs s st chunks (es ++ es') s2 st2.
(** [Fragmentizer::new(10 * 1024)] and [State::Greeting], examples/client.rs:31-32 *)
Definition client_starts (max : N) (chunks : list bytes) (es : list client_event)
    (s : fragmentizer) (st : client_state) : Prop :=
  client_runs (frag_new (Some max)) AwaitGreeting chunks es s st.
End Client.
