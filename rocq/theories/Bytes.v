(** Bytes, byte strings and the character classes of imap-types.

    Models /repo/imap-types/src/utils.rs (lines 34-138). A Rust [u8] is
    [Coq.Init.Byte.byte]; [&[u8]], [Vec<u8>], [&str] and [String] are [list byte]
    (a [str] is modelled by its UTF-8 bytes). *)

From Coq Require Export List NArith ZArith Lia Bool.
From Coq Require Export Strings.Byte.
Export ListNotations.

Definition bytes := list byte.

(** Byte-string literals: [bs "FETCH"]. Notational only: the string notation of
    [bytestr] parses the literal into the list of its bytes. *)
Inductive bytestr := ByteStr (s : list byte).
Definition bytestr_parse (s : list byte) : bytestr := ByteStr s.
Definition bytestr_print (s : bytestr) : list byte := match s with ByteStr s => s end.
Declare Scope bytestr_scope.
Delimit Scope bytestr_scope with bytestr.
String Notation bytestr bytestr_parse bytestr_print : bytestr_scope.
Definition bs (s : bytestr) : bytes := match s with ByteStr s => s end.
Arguments bs s%bytestr_scope.

(** Numeric value of a byte (Rust [u8 as u32]). *)
Definition bN (b : byte) : N := Byte.to_N b.

Definition bSP : byte := x20.
Definition bCR : byte := x0d.
Definition bLF : byte := x0a.
Definition bDQ : byte := x22.
Definition bBS : byte := x5c.

Definition beq (a b : byte) : bool := Byte.eqb a b.

(** Equality of byte slices ([==] on [&[u8]] / [&str]). *)
Fixpoint beqs (a b : bytes) : bool :=
  match a, b with
  | [], [] => true
  | x :: a', y :: b' => beq x y && beqs a' b'
  | _, _ => false
  end.

Definition inb (lo hi : N) (b : byte) : bool := N.leb lo (bN b) && N.leb (bN b) hi.

(** ** utils.rs:34-110 [indicators] *)

(* utils.rs:38-40 *)
Definition is_char (b : byte) : bool := inb 1 0x7f b.
(* utils.rs:45-47 *)
Definition is_ctl (b : byte) : bool := inb 0 0x1f b || inb 0x7f 0x7f b.
(* utils.rs:54-56 *)
Definition is_quoted_specials (b : byte) : bool := beq b bDQ || beq b bBS.
(* utils.rs:81-83 *)
Definition is_list_wildcards (b : byte) : bool := beq b "%"%byte || beq b "*"%byte.
(* utils.rs:87-89 *)
Definition is_resp_specials (b : byte) : bool := beq b "]"%byte.
(* utils.rs:69-78 *)
Definition is_atom_specials (b : byte) : bool :=
  beq b "("%byte || beq b ")"%byte || beq b "{"%byte || beq b bSP
  || is_ctl b || is_list_wildcards b || is_quoted_specials b || is_resp_specials b.
(* utils.rs:64-66 *)
Definition is_atom_char (b : byte) : bool := is_char b && negb (is_atom_specials b).
(* utils.rs:59-61 *)
Definition is_astring_char (b : byte) : bool := is_atom_char b || is_resp_specials b.
(* utils.rs:95-97 *)
Definition is_char8 (b : byte) : bool := negb (beq b x00).
(* utils.rs:102-104 *)
Definition is_text_char (b : byte) : bool :=
  inb 0x01 0x09 b || inb 0x0b 0x0c b || inb 0x0e 0x7f b.
(* utils.rs:49-51 *)
Definition is_any_text_char_except_quoted_specials (b : byte) : bool :=
  is_text_char b && negb (is_quoted_specials b).
(* utils.rs:107-109 *)
Definition is_list_char (b : byte) : bool :=
  is_atom_char b || is_list_wildcards b || is_resp_specials b.

(** [u8::is_ascii_digit], abnf_core [is_digit] *)
Definition is_digit (b : byte) : bool := inb 0x30 0x39 b.
(** abnf_core [is_alpha] *)
Definition is_alpha (b : byte) : bool := inb 0x41 0x5a b || inb 0x61 0x7a b.

(** nom [lowercase_byte], [u8::to_ascii_lowercase], [u8::to_ascii_uppercase] *)
Definition lower (b : byte) : byte :=
  if inb 0x41 0x5a b
  then match Byte.of_N (bN b + 32) with Some c => c | None => b end else b.
Definition upper (b : byte) : byte :=
  if inb 0x61 0x7a b
  then match Byte.of_N (bN b - 32) with Some c => c | None => b end else b.
Definition lowers (s : bytes) : bytes := map lower s.
Definition uppers (s : bytes) : bytes := map upper s.

(** [eq_ignore_ascii_case] *)
Definition eqi (a b : bytes) : bool := beqs (lowers a) (lowers b).

(** ** utils.rs:112-138, quoted-string escaping *)

(** [str::replace(c, to)] for a one-character pattern. *)
Fixpoint replace1 (c : byte) (to s : bytes) : bytes :=
  match s with
  | [] => []
  | x :: s' => if beq x c then to ++ replace1 c to s' else x :: replace1 c to s'
  end.

(** [str::replace(from, to)] for a two-character pattern [c1 c2]:
    left-to-right, non-overlapping. *)
Fixpoint replace2 (c1 c2 : byte) (to s : bytes) {struct s} : bytes :=
  match s with
  | [] => []
  | x :: s' =>
    match s' with
    | y :: s'' =>
      if beq x c1 && beq y c2 then to ++ replace2 c1 c2 to s''
      else x :: replace2 c1 c2 to s'
    | [] => [x]
    end
  end.

(** utils.rs:112-124. The [contains] guards only avoid an allocation and are
    dropped ([replace] without an occurrence is the identity). *)
Definition escape_quoted (s : bytes) : bytes :=
  replace1 bDQ [bBS; bDQ] (replace1 bBS [bBS; bBS] s).

(** utils.rs:126-138 *)
Definition unescape_quoted (s : bytes) : bytes :=
  replace2 bBS bDQ [bDQ] (replace2 bBS bBS [bBS] s).

(** Positions and prefixes. *)
Definition starts_with (p s : bytes) : bool := beqs p (firstn (length p) s).

(** Length as [N]: sizes of literals are compared with [u32] values. *)
Definition lenN {A} (l : list A) : N := N.of_nat (length l).

Definition u32_max : N := 4294967295.
Definition u64_max : N := 18446744073709551615.
