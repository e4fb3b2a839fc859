(** [Fragmentizer::fragment_bytes] with the check that Rust makes when it slices,
    imap-codec/examples/fragmentizer.rs: a loop that shows the fragments of what it reads, and
    [read_line] of imap-codec/examples/common/common.rs.

    Simplifications: what the example prints is a list of events; the prompts and colours of
    [read_line] are left out. *)

From Verif Require Import Bytes Features Nom Types Conv Decode Ctors Fragmentizer FragSpec.

(** imap-codec/src/fragmentizer.rs:172-181: [&self.message_buffer[start..end]] panics ([None]) if
    [start > end]; [end] is not larger than the length because of line 179. *)
Definition fragment_slice (s : fragmentizer) (f : fragment_info) : option bytes :=
  let '(a, b) := frag_range f in
  let a := Nat.min a (length (buffer s)) in
  let b := Nat.min b (length (buffer s)) in
  if Nat.ltb b a then None else Some (firstn (b - a) (skipn a (buffer s))).

(** What examples/fragmentizer.rs prints: lines 11-14, 17-20, 24, 28, 33-37 *)
Inductive shown :=
| ShFragment (f : fragment_info) (text : bytes)
| ShComplete (text : bytes)
| ShReading
| ShClosed
| ShEnqueue (count : N) (text : bytes).

(** The loop, examples/fragmentizer.rs:8-41. [reads] are the results of [stdin().read(..)] until it
    returns 0: each has between 1 and 64 bytes (line 25). There is no run if [fragment_bytes] panics. *)
Inductive shows : fragmentizer -> list bytes -> list shown -> Prop :=
| shows_fragment s s1 f b reads es :
    progress s = (s1, Some f) -> fragment_slice s1 f = Some b -> shows s1 reads es ->
    shows s reads (ShFragment f (escape_byte_string b) ::
      (if is_message_complete s1 then [ShComplete (escape_byte_string (message_bytes s1))] else []) ++ es)
| shows_closed s s1 : progress s = (s1, None) -> shows s [] [ShReading; ShClosed]
| shows_reads s s1 x reads es :
    progress s = (s1, None) -> 1 <= length x <= 64 -> shows (enqueue s1 x) reads es ->
    shows s (x :: reads) (ShReading :: ShEnqueue (lenN x) (escape_byte_string x) :: es).
(* examples/fragmentizer.rs:6 *)
Definition example_starts (reads : list bytes) (es : list shown) : Prop :=
  shows (frag_new (Some 1024%N)) reads es.

(** examples/common/common.rs:39-67: [raw] is what [Stdin::read_line] appends to the empty string *)
Fixpoint ends_with (t s : bytes) : bool :=
  beqs t s || match s with [] => false | _ :: s' => ends_with t s' end.
Definition read_line (raw : bytes) : bytes :=
  if beqs raw [] then raw
  else if ends_with [bCR; bLF] raw then raw
  else (if ends_with [bLF] raw then removelast raw else raw) ++ [bCR; bLF].

(** For the statements of FragInfoProps.v: what must be shown for a fragment, given what a caller sees
    when [progress] returns it (FragSpec.v); and which of the printed lines do so. *)
Definition shown_for (o : observation) : list shown :=
  ShFragment (ob_fragment o) (escape_byte_string (ob_bytes o)) ::
  (if ob_complete o then [ShComplete (escape_byte_string (ob_message o))] else []).
Definition is_result (e : shown) : bool :=
  match e with ShFragment _ _ | ShComplete _ => true | _ => false end.
