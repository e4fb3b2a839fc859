(** What property C58 talks about: a program that reads without the fragmentizer. It appends what
    arrives to a buffer and decodes from the front of it, as the documentation of the trait [Decoder]
    (imap-codec/src/codec/decode.rs:114-300) and its errors suggests: on [Incomplete] and on
    [LiteralFound] it waits for more bytes, on [Failed] it gives up. Which decoder it uses next may
    depend on what it has read (authenticate data after AUTHENTICATE, DONE after IDLE, responses after
    the greeting). *)

From Verif Require Import Bytes Features Nom Types Decode.

Section Reader.
Context {S E A : Type} (dec : S -> bytes -> outcome E A) (failed : E -> bool) (next : S -> A -> S).

Record reader := mkReader { rd_state : S; rd_buffer : bytes; rd_stopped : bool }.
(** Decode as long as there is a message at the front of the buffer. A message has at least one
    byte, so the length of the buffer bounds the number of turns. *)
Fixpoint drain (turns : nat) (s : S) (buffer : bytes) : reader * list A :=
  match turns with
  | O => (mkReader s buffer true, [])
  | Datatypes.S turns' =>
    match dec s buffer with
    | Decoded rest x => let '(r, l) := drain turns' (next s x) rest in (r, x :: l)
    | Error e => (mkReader s buffer (failed e), [])
    | Panic => (mkReader s buffer true, [])
    end
  end.
(** Bytes arrive. *)
Definition arrive (r : reader) (chunk : bytes) : reader * list A :=
  if rd_stopped r then (mkReader (rd_state r) (rd_buffer r ++ chunk) true, [])
  else let buffer := rd_buffer r ++ chunk in drain (Datatypes.S (length buffer)) (rd_state r) buffer.
Fixpoint arrive_all (r : reader) (chunks : list bytes) : reader * list A :=
  match chunks with
  | [] => (r, [])
  | c :: chunks' =>
    let '(r1, l1) := arrive r c in
    let '(r2, l2) := arrive_all r1 chunks' in (r2, l1 ++ l2)
  end.

(** Independently of any buffer: the stream [i] holds the messages [l], one after the other, and
    then [rest]. *)
Inductive holds : S -> bytes -> list A -> S -> bytes -> Prop :=
| holds_end s i : holds s i [] s i
| holds_more s m rest x l s' r : dec s (m ++ rest) = Decoded rest x -> holds (next s x) rest l s' r ->
    holds s (m ++ rest) (x :: l) s' r.
End Reader.

Section Roles.
Context {F : features}.
(** The decoders of a server and of a client *)
Inductive expects := ExpectCommand | ExpectAuthenticateData | ExpectIdleDone.
Inductive client_message := FromCommand (c : command) | FromAuthenticateData (a : authenticate_data) | FromIdleDone.
Definition lift {E A B} (failed : E -> bool) (f : A -> B) (o : outcome E A) : outcome bool B :=
  match o with Decoded r a => Decoded r (f a) | Error e => Error (failed e) | Panic => Panic end.
Definition decode_client (e : expects) (i : bytes) : outcome bool client_message :=
  match e with
  | ExpectCommand => lift (fun e => match e with CmdFailed => true | _ => false end) FromCommand (decode_command i)
  | ExpectAuthenticateData => lift (fun e => match e with Failed => true | _ => false end) FromAuthenticateData (decode_authenticate_data i)
  | ExpectIdleDone => lift (fun e => match e with Failed => true | _ => false end) (fun _ => FromIdleDone) (decode_idle_done i)
  end.
Inductive server_message := FromGreeting (g : greeting) | FromResponse (r : response).
(** [true]: the greeting has been read *)
Definition decode_server (greeted : bool) (i : bytes) : outcome bool server_message :=
  if greeted then lift (fun e => match e with RspFailed => true | _ => false end) FromResponse (decode_response i)
  else lift (fun e => match e with Failed => true | _ => false end) FromGreeting (decode_greeting i).
End Roles.
