(** What property C63 talks about: where in a message control characters and 8-bit bytes can be. *)

From Verif Require Import Bytes Features Types ValueSpec.
Open Scope N_scope.

(** A byte of a line that may be anything but a line ending *)
Definition LINE_CHAR (b : byte) : Prop := b <> bCR /\ b <> bLF.

Section Clean.
Context {F : features}.
(** A line ending: CR LF; with quirk_crlf_relaxed also LF alone *)
Definition line_end (e : bytes) : Prop := e = [bCR; bLF] \/ (quirk_crlf_relaxed = true /\ e = [bLF]).
(** [one_line X t]: apart from literals, the bytes [t] are all of the class [X]. A literal is announced
    with its length, in braces at the end of a line, it follows directly, and has no NUL in it, unless it
    is announced with a tilde (literal8). *)
Inductive one_line (X : byte -> Prop) : bytes -> Prop :=
| ol_end : one_line X []
| ol_char b t : X b -> one_line X t -> one_line X (b :: t)
| ol_literal n e d t : n <> [] -> digits n (lenN d) -> line_end e -> Forall CHAR8 d -> one_line X t ->
    one_line X (bs "{" ++ n ++ bs "}" ++ e ++ d ++ t)
| ol_literal_plus n e d t : n <> [] -> digits n (lenN d) -> line_end e -> Forall CHAR8 d -> one_line X t ->
    one_line X (bs "{" ++ n ++ bs "+}" ++ e ++ d ++ t)
| ol_literal8 n e d t : n <> [] -> digits n (lenN d) -> line_end e -> one_line X t ->
    one_line X (bs "~{" ++ n ++ bs "}" ++ e ++ d ++ t)
| ol_literal8_plus n e d t : n <> [] -> digits n (lenN d) -> line_end e -> one_line X t ->
    one_line X (bs "~{" ++ n ++ bs "+}" ++ e ++ d ++ t).
(** A message: such a line with its ending *)
Inductive clean (X : byte -> Prop) : bytes -> Prop :=
| clean_intro t e : one_line X t -> line_end e -> clean X (t ++ e).

End Clean.

(** The bytes of a code that is kept as text: those of an unknown code and of a referral, which may be
    any bytes and any string, and are sent as they are *)
Definition code_text (c : option code) : bytes :=
  match c with Some (CdOther t) | Some (CdReferral t) => t | _ => [] end.
Definition greeting_code (g : greeting) : bytes := code_text (gr_code g).
Definition response_code (r : response) : bytes :=
  match r with
  | RContinue (CRBasic c _) => code_text c
  | RStatus (StUntagged b) | RStatus (StTagged _ b) => code_text (sb_code b)
  | RStatus (StBye c _) => code_text c
  | _ => []
  end.
