(** What property C71 talks about: the messages whose encoding the documented syntax (AbnfSpec.v)
    does not allow, and what has to be asked of the others. *)

From Verif Require Import Bytes Features Nom Types ValueSpec EncodeCtx RoundTripSpec AbnfSpec.
Open Scope N_scope.

(** ** The output
    Outside of literals CR, LF and NUL do not occur, but in the CR LF at the end of each line (a
    [QuotedUtf8] may bring them in); and no literal has 2^32 bytes or more, as its length is announced
    with a [number]. *)
Definition plain_line (d : bytes) : Prop :=
  exists t, d = t ++ [bCR; bLF] /\ Forall (fun b => bN b <> 0 /\ b <> bCR /\ b <> bLF) t.
Definition regular (l : list fragment) : Prop :=
  Forall (fun f => match f with FrLine d => plain_line d | FrLiteral d _ => lenN d < 4294967296 end) l.
(** Without the feature [ext_utf8] the first half goes without saying. *)
Definition small_literals (l : list fragment) : Prop :=
  Forall (fun f => match f with FrLine _ => True | FrLiteral d _ => lenN d < 4294967296 end) l.
(** The first half alone *)
Definition plain_lines (l : list fragment) : Prop := Forall (fun f => match f with FrLine d => plain_line d | FrLiteral _ _ => True end) l.

Section Spec.
Context {F : features}.

(** ** The message: the values that are written in a way that is not documented. *)
(** "* is not allowed" in the sets of known UIDs. It matters what is written: the quirk
    [quirk_always_normalize_sequence_sets] may turn a number into [*]. *)
Definition no_star (s : sequence_set) : Prop :=
  Forall (fun q => match q with SSingle a => a <> SAsterisk | SRange a b => a <> SAsterisk /\ b <> SAsterisk end) (w_set s).
(** number64 is a number of 63 bits. *)
Definition in63 (n : N) : Prop := n <= 9223372036854775807.

Definition doc_select_parameter (p : select_parameter) : Prop :=
  match p with
  | SPCondStore => True
  | SPQResync _ _ known seq =>
    (forall s, known = Some s -> no_star s) /\ (forall a b, seq = Some (a, b) -> no_star a /\ no_star b)
  end.
Definition doc_command (c : command) : Prop :=
  match cmd_body c with
  | CSelect _ ps | CExamine _ ps => Forall doc_select_parameter ps
  (* the list of attributes is empty *)
  | CStatus _ l => l <> []
  | CFetch _ (MIItems l) _ _ => l <> []
  | CSetQuota _ l => Forall (fun q => in63 (qs_limit q)) l
  | _ => True
  end.

(** Unknown codes: atom [SP 1*<any TEXT-CHAR except "]">] *)
Definition code_tail (t : bytes) : Prop := some_of (fun b => TEXT_CHAR b /\ b <> "]"%byte) t.
Definition doc_code (c : option code) : Prop :=
  match c with
  | Some (CdCapability l) => In CapImap4Rev1 l
  | Some (CdReferral t) => code_tail t
  | Some (CdOther t) => some_of ATOM_CHAR t \/ exists a u, t = a ++ bs " " ++ u /\ some_of ATOM_CHAR a /\ code_tail u
  | _ => True
  end.
Definition doc_greeting (g : greeting) : Prop := doc_code (gr_code g).

(** A body of type message/rfc822 that is not a [SpecificFields::Message] *)
Fixpoint doc_body (b : body_structure) : Prop :=
  match b with
  | BSSingle _ (SFBasic t s) _ =>
    ~ (same_letters (bytes_of_istring t) (bs "MESSAGE") /\ same_letters (bytes_of_istring s) (bs "RFC822"))
  | BSSingle _ (SFMessage _ b _) _ => doc_body b
  | BSSingle _ (SFText _ _) _ => True
  | BSMulti l _ _ => (fix all l := match l with [] => True | b :: l => doc_body b /\ all l end) l
  end.
Definition doc_item (i : message_data_item) : Prop :=
  match i with
  | MDBody b | MDBodyStructure b => doc_body b
  (* written without parentheses *)
  | MDModSeq _ => False
  | _ => True
  end.
Definition doc_data (d : data) : Prop :=
  match d with
  | DCapability l => In CapImap4Rev1 l
  | DStatus _ l => Forall (fun i => match i with SIDeletedStorage n => in63 n | _ => True end) l
  | DFetch _ l => Forall doc_item l
  | DQuota _ l => Forall (fun q => in63 (qg_usage q) /\ in63 (qg_limit q)) l
  | DVanished _ s => no_star s
  | _ => True
  end.
Definition doc_response (r : response) : Prop :=
  match r with
  | RContinue (CRBasic c _) => doc_code c
  | RContinue (CRBase64 _) => True
  | RData d => doc_data d
  | RStatus (StUntagged b) | RStatus (StTagged _ b) => doc_code (sb_code b)
  | RStatus (StBye c _) => doc_code c
  end.

(** ** The code of a status response, and what is written before it. Without this the syntax of codes
    would not show: as a whole "[" code "] " text is also a text, which may start with a bracket. *)
Definition coded (r : response) : option (code * bytes) :=
  match r with
  | RContinue (CRBasic (Some c) t) => Some (c, t)
  | RStatus (StUntagged b) | RStatus (StTagged _ b) => match sb_code b with Some c => Some (c, sb_text b) | None => None end
  | RStatus (StBye (Some c) t) => Some (c, t)
  | _ => None
  end.
(** Nor would the syntax of each code: any atom may be a code, followed by a text. These are the alternatives of
    resp-text-code before that one. *)
Definition known_codes : abnf := match rules RespTextCode with Or (Or a _) _ => a | a => a end.
Definition known_code (c : code) : Prop := match c with CdReferral _ | CdOther _ => False | _ => True end.
Definition kind_text (k : status_kind) : bytes := match k with SKOk => bs "OK " | SKNo => bs "NO " | SKBad => bs "BAD " end.
Definition lead (r : response) : bytes :=
  match r with
  | RContinue _ => bs "+ "
  | RStatus (StUntagged b) => bs "* " ++ kind_text (sb_kind b)
  | RStatus (StTagged g b) => g ++ bs " " ++ kind_text (sb_kind b)
  | RStatus (StBye _ _) => bs "* BYE "
  | RData _ => []
  end.
Definition greeting_lead (g : greeting) : bytes :=
  bs "* " ++ match gr_kind g with GKOk => bs "OK " | GKPreAuth => bs "PREAUTH " | GKBye => bs "BYE " end.
End Spec.
