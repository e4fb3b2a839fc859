(** imap-codec/src/fragmentizer.rs.

    Simplifications: positions ([usize]) are unbounded naturals, so the additions at
    fragmentizer.rs:340, 509, 515 cannot overflow (they would need 2^64 bytes in one
    message); the [u32] quantities (announced length, limit) are [N] with the overflow
    checks of the code; [VecDeque]/[Vec] are byte lists. *)

From Verif Require Import Bytes Features Nom Types Utf8 Conv Decode.

(* fragmentizer.rs:565-570 *)
Record announcement := mkAnn { ann_mode : lit_mode; ann_length : N }.
(* fragmentizer.rs:574-579 *)
Inductive line_ending := Lf | CrLf.
(* fragmentizer.rs:532-551 *)
Inductive fragment_info :=
| FLine (start stop : nat) (ann : option announcement) (ending : line_ending)
| FLiteral (start stop : nat).

(* fragmentizer.rs:468-483 *)
Inductive latest_byte :=
| LOther
| LOpening
| LDigit (length : N)
| LPlus (length : N)
| LClosing (ann : announcement)
| LCr (ann : option announcement).

(* fragmentizer.rs:315-322 *)
Record line_parser := mkLineParser { lp_start : nat; lp_end : nat; lp_latest : latest_byte }.
(* fragmentizer.rs:487-494 *)
Record literal_parser := mkLitParser { tp_start : nat; tp_end : nat; tp_remaining : N }.
(* fragmentizer.rs:308-311 *)
Inductive fparser := PLine (p : line_parser) | PLiteral (p : literal_parser).

(* fragmentizer.rs:325-331, 497-503 *)
Definition new_line_parser (start : nat) : line_parser := mkLineParser start start LOther.
Definition new_literal_parser (start : nat) (len : N) : literal_parser :=
  mkLitParser start start len.

(** One byte of a line: the new [latest_byte], and whether the line is complete.
    fragmentizer.rs:342-453, one case per [LatestByte]. *)
Definition digit_of (b : byte) : N := (bN b - 48)%N.
(* length.checked_mul(10).and_then(|x| x.checked_add(digit)), fragmentizer.rs:401-405 *)
Definition push_digit (len : N) (b : byte) : option N :=
  let x := (len * 10)%N in
  if N.leb x u32_max then
    let y := (x + digit_of b)%N in if N.leb y u32_max then Some y else None
  else None.
Definition line_step (lb : latest_byte) (b : byte)
  : latest_byte * option (option announcement * line_ending) :=
  match lb with
  | LOther =>
    if beq b bCR then (LCr None, None)
    else if beq b bLF then (LOther, Some (None, Lf))
    else if beq b "{"%byte then (LOpening, None)
    else (LOther, None)
  | LOpening =>
    if beq b bCR then (LCr None, None)
    else if beq b bLF then (LOther, Some (None, Lf))
    else if beq b "{"%byte then (LOpening, None)
    else if is_digit b then (LDigit (digit_of b), None)
    else (LOther, None)
  | LPlus len =>
    if beq b bCR then (LCr None, None)
    else if beq b bLF then (LOther, Some (None, Lf))
    else if beq b "{"%byte then (LOpening, None)
    else if beq b "}"%byte then (LClosing (mkAnn NonSync len), None)
    else (LOther, None)
  | LDigit len =>
    if beq b bCR then (LCr None, None)
    else if beq b bLF then (LOther, Some (None, Lf))
    else if beq b "{"%byte then (LOpening, None)
    else if is_digit b then
      match push_digit len b with
      | None => (LOther, None)
      | Some len' => (LDigit len', None)
      end
    else if beq b "+"%byte then (LPlus len, None)
    else if beq b "}"%byte then (LClosing (mkAnn Sync len), None)
    else (LOther, None)
  | LClosing ann =>
    if beq b bCR then (LCr (Some ann), None)
    else if beq b bLF then (LOther, Some (Some ann, Lf))
    else if beq b "{"%byte then (LOpening, None)
    else (LOther, None)
  | LCr ann =>
    if beq b bCR then (LCr None, None)
    else if beq b bLF then (LOther, Some (ann, CrLf))
    else if beq b "{"%byte then (LOpening, None)
    else (LOther, None)
  end.

(** LineParser::parse, fragmentizer.rs:333-463: the new parser, the number of parsed bytes
    and the fragment *)
Fixpoint line_parse (p : line_parser) (i : bytes) : line_parser * nat * option fragment_info :=
  match i with
  | [] => (p, 0, None)
  | b :: i' =>
    let stop := S (lp_end p) in
    let '(lb, fin) := line_step (lp_latest p) b in
    let p' := mkLineParser (lp_start p) stop lb in
    match fin with
    | Some (ann, ending) => (p', 1, Some (FLine (lp_start p) stop ann ending))
    | None =>
      let '(p'', n, f) := line_parse p' i' in (p'', S n, f)
    end
  end.

(** LiteralParser::parse, fragmentizer.rs:505-525 *)
Definition literal_parse (p : literal_parser) (i : bytes)
  : literal_parser * nat * option fragment_info :=
  if N.ltb (lenN i) (tp_remaining p) then
    (mkLitParser (tp_start p) (tp_end p + length i) (tp_remaining p - lenN i),
     length i, None)
  else
    let n := N.to_nat (tp_remaining p) in
    (mkLitParser (tp_start p) (tp_end p + n) 0, n, Some (FLiteral (tp_start p) (tp_end p + n))).

(* fragmentizer.rs:64-80 *)
Record fragmentizer := mkFrag {
  unparsed : bytes;
  max_size : option N;
  exceeded : bool;
  poisoned : bool;
  buffer : bytes;
  fparser_of : option fparser
}.

(* fragmentizer.rs:86-112 *)
Definition frag_new (max : option N) : fragmentizer :=
  mkFrag [] max false false [] (Some (PLine (new_line_parser 0))).

(* fragmentizer.rs:167-169 *)
Definition enqueue (s : fragmentizer) (x : bytes) : fragmentizer :=
  mkFrag (unparsed s ++ x) (max_size s) (exceeded s) (poisoned s) (buffer s) (fparser_of s).

(* fragmentizer.rs:284-304; the subtraction [size - message_buffer.len()] does not underflow,
   see [frag_buffer_bounded] *)
Definition dequeue (s : fragmentizer) (n : nat) : fragmentizer :=
  let parsed := firstn n (unparsed s) in
  let rest := skipn n (unparsed s) in
  match max_size s with
  | Some size =>
    let remaining := N.to_nat (size - lenN (buffer s)) in
    if Nat.ltb remaining n
    then mkFrag rest (max_size s) true (poisoned s) (buffer s ++ firstn remaining parsed)
           (fparser_of s)
    else mkFrag rest (max_size s) (exceeded s) (poisoned s) (buffer s ++ parsed) (fparser_of s)
  | None => mkFrag rest (max_size s) (exceeded s) (poisoned s) (buffer s ++ parsed) (fparser_of s)
  end.

Definition set_parser (s : fragmentizer) (p : option fparser) : fragmentizer :=
  mkFrag (unparsed s) (max_size s) (exceeded s) (poisoned s) (buffer s) p.

(* fragmentizer.rs:121-133: start the next message if there is no parser *)
Definition start_message (s : fragmentizer) : fragmentizer * fparser :=
  match fparser_of s with
  | Some p => (s, p)
  | None =>
    let p := PLine (new_line_parser 0) in
    (mkFrag (unparsed s) (max_size s) false false [] (Some p), p)
  end.
(* fragmentizer.rs:142-158 *)
Definition next_parser (f : fragment_info) : option fparser :=
  match f with
  | FLine _ _ None _ => None
  | FLine _ stop (Some a) _ => Some (PLiteral (new_literal_parser stop (ann_length a)))
  | FLiteral _ stop => Some (PLine (new_line_parser stop))
  end.
(* fragmentizer.rs:136-139 *)
Definition parse_fragment (p : fparser) (i : bytes) : fparser * nat * option fragment_info :=
  match p with
  | PLine lp => let '(lp', n, f) := line_parse lp i in (PLine lp', n, f)
  | PLiteral tp => let '(tp', n, f) := literal_parse tp i in (PLiteral tp', n, f)
  end.
(* fragmentizer.rs:120-161 *)
Definition progress (s : fragmentizer) : fragmentizer * option fragment_info :=
  let '(s, p) := start_message s in
  let '(p', n, f) := parse_fragment p (unparsed s) in
  let s := dequeue (set_parser s (Some p')) n in
  match f with
  | Some f => (set_parser s (next_parser f), Some f)
  | None => (s, None)
  end.

(* fragmentizer.rs:172-181 *)
Definition frag_range (f : fragment_info) : nat * nat :=
  match f with FLine a b _ _ => (a, b) | FLiteral a b => (a, b) end.
Definition fragment_bytes (s : fragmentizer) (f : fragment_info) : bytes :=
  let '(a, b) := frag_range f in
  let a := Nat.min a (length (buffer s)) in
  let b := Nat.min b (length (buffer s)) in
  firstn (b - a) (skipn a (buffer s)).

(* fragmentizer.rs:187-201 *)
Definition is_message_complete (s : fragmentizer) : bool :=
  match fparser_of s with None => true | Some _ => false end.
Definition message_bytes (s : fragmentizer) : bytes := buffer s.

(* fragmentizer.rs:220-225 *)
Definition skip_message (s : fragmentizer) : fragmentizer :=
  mkFrag (unparsed s) (max_size s) false false [] (Some (PLine (new_line_parser 0))).
(* fragmentizer.rs:234-236 *)
Definition poison_message (s : fragmentizer) : fragmentizer :=
  mkFrag (unparsed s) (max_size s) (exceeded s) true (buffer s) (fparser_of s).

(* fragmentizer.rs:599-614; Tag::try_from checks UTF-8 and the characters,
   imap-types/src/core.rs:1068-1128 *)
Fixpoint find_sp (i : bytes) : option bytes :=
  match i with
  | [] => None
  | b :: i' =>
    if beq b bSP then Some []
    else if beq b bLF then None
    else match find_sp i' with Some t => Some (b :: t) | None => None end
  end.
Definition parse_tag (i : bytes) : option bytes :=
  match find_sp i with
  | None => None
  | Some t => if utf8_ok t && tag_ok t then Some t else None
  end.
(* fragmentizer.rs:244-246 *)
Definition decode_tag (s : fragmentizer) : option bytes := parse_tag (buffer s).

(* fragmentizer.rs:583-597 *)
Inductive decode_message_result (E A : Type) :=
| DMOk (a : A)
| DMFailure (e : E)
| DMRemainder (a : A) (rest : bytes)
| DMTooLong (initial : bytes)
| DMPoisoned (discarded : bytes)
| DMPanic.
Arguments DMOk {E A} a.
Arguments DMFailure {E A} e.
Arguments DMRemainder {E A} a rest.
Arguments DMTooLong {E A} initial.
Arguments DMPoisoned {E A} discarded.
Arguments DMPanic {E A}.
(* fragmentizer.rs:253-282 *)
Definition decode_message {E A} (dec : bytes -> outcome E A) (s : fragmentizer)
  : decode_message_result E A :=
  if exceeded s then DMTooLong (buffer s)
  else if poisoned s then DMPoisoned (buffer s)
  else
    match dec (buffer s) with
    | Decoded [] m => DMOk m
    | Decoded r m => DMRemainder m r
    | Error e => DMFailure e
    | Panic => DMPanic
    end.
