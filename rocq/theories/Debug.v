(** [Debug] output of the values that carry secrets (imap-types/src/secret.rs).

    Derived [Debug] implementations build the output with [Formatter::debug_struct] and friends of
    the Rust standard library; [dbg] is what they are given and [render] is what they print, for
    [{:?}] and for [{:#?}] ([pretty]). How the standard library prints a string ([str_debug]) and how
    the command bodies without a secret print are parameters: nothing is assumed about them. *)

From Verif Require Import Bytes Dec Nom Types Ctors Decode EncodeCtx Fragmentizer.

Inductive dbg :=
| DText (s : bytes)
| DUnit (name : bytes)
| DTuple (name : bytes) (fields : list dbg)
| DStruct (name : bytes) (fields : list (bytes * dbg))
| DList (items : list dbg).

(** core::fmt::builders: [{:?}] *)
Fixpoint commas (l : list bytes) : bytes :=
  match l with [] => [] | [x] => x | x :: l => x ++ bs ", " ++ commas l end.
Fixpoint compact (d : dbg) : bytes :=
  match d with
  | DText s => s
  | DUnit n => n
  | DTuple n l => n ++ bs "(" ++ commas (map compact l) ++ bs ")"
  | DStruct n l => n ++ bs " { " ++ commas (map (fun p => fst p ++ bs ": " ++ compact (snd p)) l) ++ bs " }"
  | DList l => bs "[" ++ commas (map compact l) ++ bs "]"
  end.
(** core::fmt::builders: [{:#?}]; [PadAdapter] indents every line by four spaces *)
Fixpoint pad (start : bool) (s : bytes) : bytes :=
  match s with
  | [] => []
  | c :: s => (if start then bs "    " else []) ++ c :: pad (beq c bLF) s
  end.
Definition line (s : bytes) : bytes := pad true (s ++ bs "," ++ [bLF]).
Fixpoint pretty (d : dbg) : bytes :=
  match d with
  | DText s => s
  | DUnit n => n
  | DTuple n l => n ++ bs "(" ++ [bLF] ++ concat (map (fun d => line (pretty d)) l) ++ bs ")"
  | DStruct n l =>
    n ++ bs " {" ++ [bLF] ++ concat (map (fun p => line (fst p ++ bs ": " ++ pretty (snd p))) l) ++ bs "}"
  | DList [] => bs "[]"
  | DList l => bs "[" ++ [bLF] ++ concat (map (fun d => line (pretty d)) l) ++ bs "]"
  end.
Definition render (alternate : bool) (d : dbg) : bytes := if alternate then pretty d else compact d.

Section Debug.
(** [cfg!(debug_assertions)] *)
Variable debug_assertions : bool.
(** [<str as Debug>::fmt] *)
Variable str_debug : bytes -> bytes.
(** the derived [Debug] of the command bodies other than [Login] and [Authenticate], which
    have no [Secret] field (imap-types/src/command.rs:70-1546), of a [CommandDecodeError] and so on *)
Variable body_debug : command_body -> dbg.

(* imap-types/src/secret.rs:38-49 *)
Definition secret_debug (d : dbg) : dbg := if debug_assertions then d else DText (bs "/* REDACTED */").
(** [<[u8] as Debug>::fmt], also of [Cow<[u8]>] *)
Definition bytes_debug (s : bytes) : dbg := DList (map (fun b => DText (dec (bN b))) s).
(* core.rs:115-119, 265-269, 765-769, 1063-1067; extensions/utf8.rs:44-48 *)
Definition newtype_debug (name s : bytes) : dbg := DText (name ++ bs "(" ++ str_debug s ++ bs ")").
(* core.rs:726-736 *)
Definition mode_debug (m : lit_mode) : dbg := match m with Sync => DUnit (bs "Sync") | NonSync => DUnit (bs "NonSync") end.
(* core.rs:545-564 *)
Definition literal_debug (l : literal_t) : dbg :=
  DStruct (bs "Literal") [(bs "data", DText (bs "b""" ++ escape_byte_string (lit_data l) ++ bs """"));
                          (bs "mode", mode_debug (lit_mode_of l))].
(* core.rs:391-401 *)
Definition istring_debug (s : istring) : dbg :=
  match s with
  | ILiteral l => DTuple (bs "Literal") [literal_debug l]
  | IQuoted s => DTuple (bs "Quoted") [newtype_debug (bs "Quoted") s]
  | IQuotedUtf8 s => DTuple (bs "QuotedUtf8") [newtype_debug (bs "QuotedUtf8") s]
  end.
(* core.rs:944-949 *)
Definition astring_debug (a : astring) : dbg :=
  match a with
  | AAtom a => DTuple (bs "Atom") [newtype_debug (bs "AtomExt") a]
  | AString s => DTuple (bs "String") [istring_debug s]
  end.
(* auth.rs:24-141, 201-202 *)
Definition mech_debug (m : auth_mechanism) : dbg :=
  match m with
  | AMPlain => DUnit (bs "Plain")
  | AMLogin => DUnit (bs "Login")
  | AMOAuthBearer => DUnit (bs "OAuthBearer")
  | AMXOAuth2 => DUnit (bs "XOAuth2")
  | AMScramSha1 => DUnit (bs "ScramSha1")
  | AMScramSha1Plus => DUnit (bs "ScramSha1Plus")
  | AMScramSha256 => DUnit (bs "ScramSha256")
  | AMScramSha256Plus => DUnit (bs "ScramSha256Plus")
  | AMScramSha3_512 => DUnit (bs "ScramSha3_512")
  | AMScramSha3_512Plus => DUnit (bs "ScramSha3_512Plus")
  | AMOther a => DTuple (bs "Other") [DTuple (bs "AuthMechanismOther") [newtype_debug (bs "Atom") a]]
  end.
(** [<Option<T> as Debug>::fmt] *)
Definition option_debug {A} (f : A -> dbg) (o : option A) : dbg :=
  match o with None => DUnit (bs "None") | Some a => DTuple (bs "Some") [f a] end.
(* command.rs:66-1546, the variants 267-278 and 319-323 *)
Definition command_body_debug (c : command_body) : dbg :=
  match c with
  | CLogin u p => DStruct (bs "Login") [(bs "username", astring_debug u);
                                        (bs "password", secret_debug (astring_debug p))]
  | CAuthenticate m ir =>
    DStruct (bs "Authenticate") [(bs "mechanism", mech_debug m);
                                 (bs "initial_response", option_debug (fun s => secret_debug (bytes_debug s)) ir)]
  | c => body_debug c
  end.
(* command.rs:40-48 *)
Definition command_debug (c : command) : dbg :=
  DStruct (bs "Command") [(bs "tag", newtype_debug (bs "Tag") (cmd_tag c)); (bs "body", command_body_debug (cmd_body c))].
(* auth.rs:210-219 *)
Definition authenticate_data_debug (a : authenticate_data) : dbg :=
  match a with
  | ADContinue d => DTuple (bs "Continue") [secret_debug (bytes_debug d)]
  | ADCancel => DUnit (bs "Cancel")
  end.
(* codec/decode.rs:157-211 *)
Definition command_error_debug (e : command_error) : dbg :=
  match e with
  | CmdIncomplete => DUnit (bs "Incomplete")
  | CmdLiteralFound t n m =>
    DStruct (bs "LiteralFound") [(bs "tag", newtype_debug (bs "Tag") t); (bs "length", DText (dec n)); (bs "mode", mode_debug m)]
  | CmdFailed => DUnit (bs "Failed")
  end.
(* codec/decode.rs:234-241 *)
Definition simple_error_debug (e : simple_error) : dbg :=
  match e with Incomplete => DUnit (bs "Incomplete") | Failed => DUnit (bs "Failed") end.
(* fragmentizer.rs:582-597 DecodeMessageError; the successful result and a panic print nothing *)
Definition decode_message_debug {E A} (error_debug : E -> dbg) (message_debug : A -> dbg)
  (r : decode_message_result E A) : option dbg :=
  match r with
  | DMFailure e => Some (DTuple (bs "DecodingFailure") [error_debug e])
  | DMRemainder m rest =>
    Some (DStruct (bs "DecodingRemainder") [(bs "message", message_debug m); (bs "remainder", secret_debug (bytes_debug rest))])
  | DMTooLong s => Some (DStruct (bs "MessageTooLong") [(bs "initial", secret_debug (bytes_debug s))])
  | DMPoisoned s => Some (DStruct (bs "MessagePoisoned") [(bs "discarded", secret_debug (bytes_debug s))])
  | DMOk _ | DMPanic => None
  end.

(** Values of the public API that hold message bytes and derive [Debug] without [Secret] *)
Definition bool_debug (b : bool) : dbg := DUnit (if b then bs "true" else bs "false").
Definition number_debug (n : N) : dbg := DText (dec n).
Definition position_debug (n : nat) : dbg := number_debug (N.of_nat n).
(* fragmentizer.rs:564-570 *)
Definition announcement_debug (a : announcement) : dbg :=
  DStruct (bs "LiteralAnnouncement") [(bs "mode", mode_debug (ann_mode a)); (bs "length", number_debug (ann_length a))].
(* fragmentizer.rs:531-551, 573-579 *)
Definition fragment_info_debug (f : fragment_info) : dbg :=
  match f with
  | FLine start stop a e =>
    DStruct (bs "Line")
      [(bs "start", position_debug start); (bs "end", position_debug stop);
       (bs "announcement", option_debug announcement_debug a);
       (bs "ending", DUnit (match e with Lf => bs "Lf" | CrLf => bs "CrLf" end))]
  | FLiteral start stop =>
    DStruct (bs "Literal") [(bs "start", position_debug start); (bs "end", position_debug stop)]
  end.
(* fragmentizer.rs:467-483 *)
Definition latest_byte_debug (l : latest_byte) : dbg :=
  match l with
  | LOther => DUnit (bs "Other")
  | LOpening => DUnit (bs "OpeningBracket")
  | LDigit n => DStruct (bs "Digit") [(bs "length", number_debug n)]
  | LPlus n => DStruct (bs "Plus") [(bs "length", number_debug n)]
  | LClosing a => DStruct (bs "ClosingBracket") [(bs "announcement", announcement_debug a)]
  | LCr a => DStruct (bs "Cr") [(bs "announcement", option_debug announcement_debug a)]
  end.
(* fragmentizer.rs:307-322, 486-494 *)
Definition parser_debug (p : fparser) : dbg :=
  match p with
  | PLine p =>
    DTuple (bs "Line")
      [DStruct (bs "LineParser")
         [(bs "start", position_debug (lp_start p)); (bs "end", position_debug (lp_end p));
          (bs "latest_byte", latest_byte_debug (lp_latest p))]]
  | PLiteral p =>
    DTuple (bs "Literal")
      [DStruct (bs "LiteralParser")
         [(bs "start", position_debug (tp_start p)); (bs "end", position_debug (tp_end p));
          (bs "remaining", number_debug (tp_remaining p))]]
  end.
(* fragmentizer.rs:63-80 *)
Definition fragmentizer_debug (s : fragmentizer) : dbg :=
  DStruct (bs "Fragmentizer")
    [(bs "unparsed_buffer", bytes_debug (unparsed s)); (bs "max_message_size", option_debug number_debug (max_size s));
     (bs "max_message_size_exceeded", bool_debug (exceeded s)); (bs "message_poisoned", bool_debug (poisoned s));
     (bs "message_buffer", bytes_debug (buffer s)); (bs "parser", option_debug parser_debug (fparser_of s))].
(* codec/encode.rs:157-164 *)
Definition fragment_debug (f : fragment) : dbg :=
  match f with
  | FrLine d => DStruct (bs "Line") [(bs "data", bytes_debug d)]
  | FrLiteral d m => DStruct (bs "Literal") [(bs "data", bytes_debug d); (bs "mode", mode_debug m)]
  end.
(* codec/encode.rs:127-130 *)
Definition encoded_debug (l : list fragment) : dbg :=
  DStruct (bs "Encoded") [(bs "items", DList (map fragment_debug l))].
End Debug.
