(** imap-codec/examples/server.rs: the server loop on whatever bytes a client sends.

    [react] (Session.v) is what the loop does after each fragment. Simplifications: as in Session.v; [read_more]
    (examples/common/common.rs) returns the next chunk, and the run ends when there is none. *)

From Verif Require Import Bytes Features Nom Types Decode Fragmentizer Session.

Section Server.
Context {F : features}.
Variable lim : N.

(** The loop, examples/server.rs:46-160, until it waits for more than [chunks]: what it has sent and what it has
    learned. *)
Inductive server_runs : fragmentizer -> server_state -> list bytes -> list reply -> list event ->
    fragmentizer -> server_state -> Prop :=
| server_waits s s' st : progress s = (s', None) -> server_runs s st [] [] [] s' st
| server_reads s s' st x chunks rs es s2 st2 :
    progress s = (s', None) -> server_runs (enqueue s' x) st chunks rs es s2 st2 ->
    server_runs s st (x :: chunks) rs es s2 st2
| server_goes_on s s1 f s1' st st1 rs es chunks rs' es' s2 st2 :
    progress s = (s1, Some f) -> react lim st s1 f = (s1', st1, rs, es) ->
    server_runs s1' st1 chunks rs' es' s2 st2 -> server_runs s st chunks (rs ++ rs') (es ++ es') s2 st2.
(** [Fragmentizer::new(10 * 1024)] and [State::Command], examples/server.rs:40-41 *)
Definition server_starts (max : N) (chunks : list bytes) (rs : list reply) (es : list event)
    (s : fragmentizer) (st : server_state) : Prop :=
  server_runs (frag_new (Some max)) AwaitCommand chunks rs es s st.
End Server.
