(** Specification of the fragmentizer, independent of its implementation.

    A byte stream is cut into lines (up to and including the next LF) and literals (as many
    bytes as the preceding line announced). *)

From Verif Require Import Bytes Nom BytesFacts Fragmentizer.

(** A line: its only LF is its last byte. *)
Definition is_line (l : bytes) : Prop := exists t, l = t ++ [bLF] /\ ~ In bLF t.

Definition plus_of (m : lit_mode) : bytes :=
  match m with Sync => [] | NonSync => bs "+" end.

(** The line [l] ends in ["{" digits ["+"] "}"] and a line ending; the digits denote a
    [u32]. *)
Definition announces (l : bytes) (a : announcement) : Prop :=
  exists pre digits eol,
    l = pre ++ bs "{" ++ digits ++ plus_of (ann_mode a) ++ bs "}" ++ eol /\
    (eol = [bLF] \/ eol = [bCR; bLF]) /\
    digits <> [] /\ forallb is_digit digits = true /\
    ann_length a = dval digits /\ (dval digits <= 4294967295)%N.

Definition announcement_of (l : bytes) (a : option announcement) : Prop :=
  match a with
  | Some a => announces l a
  | None => forall a, ~ announces l a
  end.

Definition ending_of (l : bytes) (e : line_ending) : Prop :=
  match e with
  | CrLf => exists t, l = t ++ [bCR; bLF]
  | Lf => ~ exists t, l = t ++ [bCR; bLF]
  end.

(** A fragment with its bytes. *)
Inductive frag :=
| Line (l : bytes) (ann : option announcement) (ending : line_ending)
| Literal (d : bytes).
Definition frag_bytes (f : frag) : bytes := match f with Line l _ _ => l | Literal d => d end.

(** What the next fragment must be. *)
Inductive expectation := ExpectLine | ExpectLiteral (n : N).
Definition after_line (ann : option announcement) : expectation :=
  match ann with Some a => ExpectLiteral (ann_length a) | None => ExpectLine end.

(** [splits e s fs e' rest]: expecting [e], the stream [s] consists of the fragments [fs]
    followed by the unfinished fragment [rest], for which [e'] is expected. *)
Inductive splits : expectation -> bytes -> list frag -> expectation -> bytes -> Prop :=
| splits_line_end s : ~ In bLF s -> splits ExpectLine s [] ExpectLine s
| splits_literal_end n s : (lenN s < n)%N -> splits (ExpectLiteral n) s [] (ExpectLiteral n) s
| splits_line l ann ending s fs e rest :
    is_line l -> announcement_of l ann -> ending_of l ending ->
    splits (after_line ann) s fs e rest ->
    splits ExpectLine (l ++ s) (Line l ann ending :: fs) e rest
| splits_literal n d s fs e rest :
    lenN d = n ->
    splits ExpectLine s fs e rest ->
    splits (ExpectLiteral n) (d ++ s) (Literal d :: fs) e rest.

(** Everything a caller can see right after [progress] returned a fragment. *)
Record observation := mkObs {
  ob_fragment : fragment_info;
  ob_bytes : bytes;          (* fragment_bytes *)
  ob_complete : bool;        (* is_message_complete *)
  ob_message : bytes;        (* message_bytes *)
  ob_exceeded : bool;        (* is_max_message_size_exceeded *)
  ob_poisoned : bool         (* is_message_poisoned *)
}.
Definition observe (s : fragmentizer) (f : fragment_info) : observation :=
  mkObs f (fragment_bytes s f) (is_message_complete s) (message_bytes s) (exceeded s)
    (poisoned s).

(** What must be seen: the fragments' kinds, announcements and endings; positions counted
    from the start of the message; at most the first [max] bytes of the message. *)
Definition limited (max : option N) (m : bytes) : bytes :=
  match max with None => m | Some n => firstn (N.to_nat n) m end.
Definition too_long (max : option N) (m : bytes) : bool :=
  match max with None => false | Some n => N.ltb n (lenN m) end.
Definition ends_message (f : frag) : bool :=
  match f with Line _ None _ => true | _ => false end.
(** The bytes between two positions, as far as they are there *)
Definition slice (a b : nat) (m : bytes) : bytes := firstn (b - a) (skipn a m).
Definition info_of (start : nat) (f : frag) : fragment_info :=
  match f with
  | Line l ann ending => FLine start (start + length l) ann ending
  | Literal d => FLiteral start (start + length d)
  end.

(** [message] is the part of the current message before the fragments [fs]. *)
Fixpoint expected (max : option N) (message : bytes) (fs : list frag) : list observation :=
  match fs with
  | [] => []
  | f :: fs' =>
    let message' := message ++ frag_bytes f in
    mkObs (info_of (length message) f)
          (slice (length message) (length message') (limited max message'))
          (ends_message f)
          (limited max message')
          (too_long max message')
          false
      :: expected max (if ends_message f then [] else message') fs'
  end.
(** The part of the current message after [fs]. *)
Fixpoint current (message : bytes) (fs : list frag) : bytes :=
  match fs with
  | [] => message
  | f :: fs' => current (if ends_message f then [] else message ++ frag_bytes f) fs'
  end.

(** Histories of API calls. *)
Inductive call := Enqueue (x : bytes) | Progress | Skip | Poison.
Definition step (s : fragmentizer) (o : call) : fragmentizer * list observation :=
  match o with
  | Enqueue x => (enqueue s x, [])
  | Progress => let '(s', f) := progress s in
                (s', match f with Some f => [observe s' f] | None => [] end)
  | Skip => (skip_message s, [])
  | Poison => (poison_message s, [])
  end.
Fixpoint run (s : fragmentizer) (ops : list call) : fragmentizer * list observation :=
  match ops with
  | [] => (s, [])
  | o :: ops' =>
    let '(s1, o1) := step s o in
    let '(s2, o2) := run s1 ops' in (s2, o1 ++ o2)
  end.
(** Calling [progress] until it returns [None]. *)
Inductive drains : fragmentizer -> list observation -> fragmentizer -> Prop :=
| drains_none s s' : progress s = (s', None) -> drains s [] s'
| drains_some s s1 f obs s' :
    progress s = (s1, Some f) -> drains s1 obs s' -> drains s (observe s1 f :: obs) s'.
(** A history followed by draining. *)
Definition run_drain (s : fragmentizer) (ops : list call) (obs : list observation)
    (s' : fragmentizer) : Prop :=
  exists s1 o1 o2, run s ops = (s1, o1) /\ drains s1 o2 s' /\ obs = o1 ++ o2.

(** Histories that only feed and parse. *)
Definition feeds (ops : list call) : Prop :=
  Forall (fun o => match o with Enqueue _ | Progress => True | _ => False end) ops.
Definition fed (ops : list call) : bytes :=
  flat_map (fun o => match o with Enqueue x => x | _ => [] end) ops.

(** Each observed message is what its fragments, since the last complete message, add up to.
    [acc] is what the current message had before. *)
Fixpoint messages_add_up (acc : bytes) (obs : list observation) : Prop :=
  match obs with
  | [] => True
  | o :: obs' =>
    ob_message o = acc ++ ob_bytes o /\
    messages_add_up (if ob_complete o then [] else acc ++ ob_bytes o) obs'
  end.
(** The part of the current message that [obs] has delivered. *)
Fixpoint delivered (acc : bytes) (obs : list observation) : bytes :=
  match obs with
  | [] => acc
  | o :: obs' => delivered (if ob_complete o then [] else acc ++ ob_bytes o) obs'
  end.

(** What does not depend on the limit and on poisoning: what the fragment is, and whether it
    completes its message. *)
Definition shape (o : observation) : fragment_info * bool := (ob_fragment o, ob_complete o).
(** The history without its calls to [poison_message]. *)
Definition no_poison (ops : list call) : list call :=
  filter (fun o => match o with Poison => false | _ => true end) ops.
(** The history stays in the current message: it does not skip it and does not call
    [progress] once it is complete. *)
Fixpoint stays (s : fragmentizer) (ops : list call) : Prop :=
  match ops with
  | [] => True
  | Skip :: _ => False
  | Progress :: ops' => is_message_complete s = false /\ stays (fst (progress s)) ops'
  | o :: ops' => stays (fst (step s o)) ops'
  end.
