(** The fragmentizer of Fragmentizer.v once more, now counting steps: one for every call, for
    every byte that is looked at, searched, drained or copied. Clearing a buffer of bytes is
    one step ([Vec::clear] has nothing to drop); [extend] and [drain] are charged their bytes
    (what [Vec] and [VecDeque] do to grow is part of the trusted base). *)

From Verif Require Import Bytes Features Nom Types Utf8 Conv Decode Fragmentizer CostResp.

(** LineParser::parse, fragmentizer.rs:333-463: one step for each byte of the loop *)
Fixpoint line_parse_c (p : line_parser) (i : bytes)
  : (line_parser * nat * option fragment_info) * nat :=
  match i with
  | [] => ((p, 0, None), 1)
  | b :: i' =>
    let stop := S (lp_end p) in
    let '(lb, fin) := line_step (lp_latest p) b in
    let p' := mkLineParser (lp_start p) stop lb in
    match fin with
    | Some (ann, ending) => ((p', 1, Some (FLine (lp_start p) stop ann ending)), 2)
    | None =>
      let '((p'', n, f), c) := line_parse_c p' i' in ((p'', S n, f), S c)
    end
  end.
(** LiteralParser::parse, fragmentizer.rs:505-525: no loop *)
Definition literal_parse_c (p : literal_parser) (i : bytes)
  : (literal_parser * nat * option fragment_info) * nat := (literal_parse p i, 1).
(** fragmentizer.rs:136-139 *)
Definition parse_fragment_c (p : fparser) (i : bytes)
  : (fparser * nat * option fragment_info) * nat :=
  match p with
  | PLine lp => let '((lp', n, f), c) := line_parse_c lp i in ((PLine lp', n, f), S c)
  | PLiteral tp => let '((tp', n, f), c) := literal_parse_c tp i in ((PLiteral tp', n, f), S c)
  end.
(** fragmentizer.rs:167-169 *)
Definition enqueue_c (s : fragmentizer) (x : bytes) : fragmentizer * nat :=
  (enqueue s x, S (length x)).
(** fragmentizer.rs:284-304: the drained bytes and those copied to the message *)
Definition dequeue_c (s : fragmentizer) (n : nat) : fragmentizer * nat :=
  let s' := dequeue s n in (s', S (n + (length (buffer s') - length (buffer s)))).
(** fragmentizer.rs:121-133 *)
Definition start_message_c (s : fragmentizer) : (fragmentizer * fparser) * nat :=
  (start_message s, 1).
(** fragmentizer.rs:120-161 *)
Definition progress_c (s : fragmentizer) : (fragmentizer * option fragment_info) * nat :=
  let '((s, p), c1) := start_message_c s in
  let '((p', n, f), c2) := parse_fragment_c p (unparsed s) in
  let '(s, c3) := dequeue_c (set_parser s (Some p')) n in
  match f with
  | Some f => ((set_parser s (next_parser f), Some f), S (c1 + c2 + c3))
  | None => ((s, None), S (c1 + c2 + c3))
  end.
(** fragmentizer.rs:220-225, 234-236 *)
Definition skip_message_c (s : fragmentizer) : fragmentizer * nat := (skip_message s, 1).
Definition poison_message_c (s : fragmentizer) : fragmentizer * nat := (poison_message s, 1).

(** fragmentizer.rs:599-614: the bytes searched for a space, then those before it checked
    twice (UTF-8, characters) *)
Fixpoint find_sp_c (i : bytes) : option bytes * nat :=
  match i with
  | [] => (None, 1)
  | b :: i' =>
    if beq b bSP then (Some [], 1)
    else if beq b bLF then (None, 1)
    else match find_sp_c i' with (Some t, c) => (Some (b :: t), S c) | (None, c) => (None, S c) end
  end.
Definition parse_tag_c (i : bytes) : option bytes * nat :=
  match find_sp_c i with
  | (None, c) => (None, S c)
  | (Some t, c) => (if utf8_ok t && tag_ok t then Some t else None, S (c + 2 * length t))
  end.
(** fragmentizer.rs:244-246 *)
Definition decode_tag_c (s : fragmentizer) : option bytes * nat := parse_tag_c (buffer s).
(** fragmentizer.rs:253-282, with a decoder whose steps are [cost] *)
Definition decode_message_c (cost : bytes -> nat) (s : fragmentizer) : nat :=
  if exceeded s then 1
  else if poisoned s then 1
  else S (cost (buffer s)).

(** ** Histories and the receiving loop *)

From Verif Require Import FragSpec.

(** Steps of a history of calls. *)
Definition call_c (s : fragmentizer) (o : call) : fragmentizer * nat :=
  match o with
  | Enqueue x => enqueue_c s x
  | Progress => let '((s', _), c) := progress_c s in (s', c)
  | Skip => skip_message_c s
  | Poison => poison_message_c s
  end.
Fixpoint run_c (s : fragmentizer) (ops : list call) : fragmentizer * nat :=
  match ops with
  | [] => (s, 0)
  | o :: ops' =>
    let '(s1, c1) := call_c s o in
    let '(s2, c2) := run_c s1 ops' in (s2, c1 + c2)
  end.

(** The loop of the documentation (fragmentizer.rs:28-43, examples/server.rs,
    examples/client.rs): [progress] until it returns [None]; a complete message is given to
    a decoder, once. [decode] is what this costs. *)
Inductive drains_c (decode : fragmentizer -> nat) : fragmentizer -> nat -> fragmentizer -> Prop :=
| drains_c_none s s' c : progress_c s = ((s', None), c) -> drains_c decode s c s'
| drains_c_some s s1 f c n s' :
    progress_c s = ((s1, Some f), c) -> drains_c decode s1 n s' ->
    drains_c decode s (c + (if is_message_complete s1 then decode s1 else 0) + n) s'.
(** Bytes come in chunks of any size, empty ones included; the loop drains each. *)
Inductive receives (decode : fragmentizer -> nat) : fragmentizer -> list bytes -> nat -> fragmentizer -> Prop :=
| receives_nil s : receives decode s [] 0 s
| receives_cons s x chunks c n s1 m s2 :
    drains_c decode (fst (enqueue_c s x)) n s1 -> c = snd (enqueue_c s x) ->
    receives decode s1 chunks m s2 ->
    receives decode s (x :: chunks) (c + n + m) s2.

(** Every way to decode a message, one after the other: as a command, as a response, as a
    greeting, as authenticate data, as the end of IDLE, and only its tag. *)
Definition decode_all {F : features} (s : fragmentizer) : nat :=
  decode_message_c steps_command s + decode_message_c steps_response s +
  decode_message_c steps_greeting s + decode_message_c steps_authenticate_data s +
  decode_message_c steps_idle_done s + snd (decode_tag_c s).
