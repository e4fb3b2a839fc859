(** The formal syntax of IMAP, in the notation of the RFCs.

    The rules are those quoted in the documentation of the parsers in /repo/imap-codec/src (from
    RFC 3501 section 9, with the errata named there, and from the RFCs of the extensions). They
    say nothing about the meaning of a text; Grammar.v does. The differences between the
    documented syntax and what the crate accepts are marked:

    - [Extra a]: the crate accepts [a] as well.
    - [Limit P a]: of the texts of [a], the crate accepts those with [P] only.
    - [Beyond a]: the crate does not accept [a] (it is beyond a limit on the nesting).

    [Feature b a] is a rule of an extension that a cargo feature switches on. [Where P a] is a
    condition that the RFC gives in a comment beside the rule. *)

From Verif Require Import Bytes Features Nom Types Utf8 ValueSpec.
Open Scope N_scope.

Inductive rule :=
(* tokens *)
| CRLF | Number | Number64 | NzNumber | Atom | Tag | Astring | String_ | Quoted | QuotedChar
| Literal | Literal8 | Nil | Nstring | Charset | Base64 | Base64Char | Base64Terminal | Text
(* sequence sets, mailboxes, flags, dates *)
| SequenceSet | SeqRange | SeqNumber | Mailbox | ListMailbox
| Flag | FlagKeyword | FlagExtension | FlagList
| Date | DateText | DateDay | DateMonth | DateYear | DateTime | DateDayFixed | Time | Zone
(* search *)
| Search | SearchKey (depth : nat) | SearchCriteria | HeaderFldName
| SearchModsequence | SearchModseqExt | EntryName | EntryFlagName | AttrFlag | AttrFlagKeyword
| AttrFlagExtension | EntryTypeReq | EntryTypeResp | ModSequenceValue | ModSequenceValzer
(* fetch, store *)
| Fetch | FetchAtt | Section_ | SectionSpec | SectionMsgtext | SectionText | SectionPart | HeaderList
| SectionBinary | Partial | FetchModifiers | FetchModifier | ChgsinceFetchMod | RexpungesFetchMod
| Store | StoreModifiers | StoreModifier | StoreAttFlags
(* the other commands *)
| Command | CommandAny | CommandAuth | CommandNonauth | CommandSelect
| Append | Create | Delete | Examine | List_ | Lsub | Rename | Select | Status | Subscribe | Unsubscribe
| SelectParams | SelectParam | CondstoreParam | Uidvalidity | KnownUids | SeqMatchData
| KnownSequenceSet | KnownUidSet | StatusAtt | Login | Userid | Password | Authenticate | AuthType
| Copy | Move | Uid | UidExpunge
| Id | IdParam | IdParamsList | Idle | Enable | Capability | Compress | Algorithm | Namespace_
| Getquota | Getquotaroot | Setquota | SetquotaList | SetquotaResource | QuotaRootName
| ResourceName | ResourceNameExt | ResourceLimit
| Setmetadata | EntryValues | EntryValue | Entry | Value | Getmetadata | GetmetadataOptions
| GetmetadataOption | MaxsizeOpt | ScopeOpt | Entries
| Sort | SortCriteria | SortCriterion | SortKey | Thread | ThreadAlg | ThreadAlgExt
(* other lines of a client *)
| AuthenticateData | IdleDone
(* responses *)
| Greeting | RespCondAuth | RespCondBye | RespText | RespTextCode | CapabilityData
| RespCodeApnd | AppendUid | Uniqueid | RespCodeCopy | UidSet | UidRange
| Response | ContinueReq | ResponseData | RespCondState | ResponseDone | ResponseTagged | ResponseFatal
| MailboxData | SearchSortModSeq | MailboxList | MbxListFlags | MbxListOflag | MbxListSflag
| StatusAttList | StatusAttVal | FlagFetch | FlagPerm
| EnableData | IdResponse | MetadataResp | EntryList | MetadataCode
| NamespaceResponse | Namespaces | NamespaceDescr | NamespaceResponseExtension
| QuotarootResponse | QuotaResponse | QuotaList | QuotaResource | ResourceUsage
| ThreadData | ThreadList (depth : nat) | ThreadMembers (depth : nat) | ThreadNested (depth : nat)
| MessageData | ExpungedResp | MsgAtt | MsgAttDynamic | MsgAttStatic
| Envelope | EnvDate | EnvSubject | EnvFrom | EnvSender | EnvReplyTo | EnvTo | EnvCc | EnvBcc | EnvInReplyTo
| EnvMessageId | Address | AddrName | AddrAdl | AddrMailbox | AddrHost
| Body (depth : nat) | BodyType1part | BodyTypeMpart (depth : nat) | BodyTypeBasic | BodyTypeMsg | BodyTypeText
| BodyFields | BodyFldParam | BodyFldId | BodyFldDesc | BodyFldEnc | BodyFldOctets | BodyFldLines
| BodyExt1part | BodyExtMpart | BodyFldMd5 | BodyFldDsp | BodyFldLang | BodyFldLoc | BodyExtension (depth : nat)
| MediaBasic | MediaSubtype | MediaMessage | MediaText.

Inductive abnf :=
| Str (s : bytes)                      (* "...": in any letter case *)
| Chr (X : byte -> Prop)               (* one character *)
| Eps                                  (* nothing *)
| Cat (a b : abnf)
| Or (a b : abnf)
| Many (a : abnf)                      (* *a *)
| Ref (r : rule)
| Prose (P : bytes -> Prop)            (* <...> *)
| Where (P : bytes -> Prop) (a : abnf)
| Feature (b : bool) (a : abnf)
| Extra (a : abnf)
| Limit (P : bytes -> Prop) (a : abnf)
| Beyond (a : abnf).
Coercion Ref : rule >-> abnf.

(** ["..."], [a ^ b] for [a b], [a / b], [opt a] for [[a]], [some a] for [1*a], [times n a] for [n a] *)
Declare Scope abnf_scope.
Delimit Scope abnf_scope with abnf.
Definition abnf_parse (s : list byte) : abnf := Str s.
Definition abnf_print (a : abnf) : option (list byte) := match a with Str s => Some s | _ => None end.
String Notation abnf abnf_parse abnf_print : abnf_scope.
Notation "a ^ b" := (Cat a b) : abnf_scope.
Notation "a / b" := (Or a b) : abnf_scope.
Bind Scope abnf_scope with abnf.
Open Scope abnf_scope.
Definition opt (a : abnf) : abnf := Eps / a.
Definition some (a : abnf) : abnf := a ^ Many a.
Fixpoint times (n : nat) (a : abnf) : abnf := match n with O => Eps | S n => a ^ times n a end.

Definition SP : abnf := " ".
Definition DQUOTE : abnf := """".
(** DIGIT = %x30-39 *)
Definition is_DIGIT (b : byte) : Prop := 0x30 <= bN b <= 0x39.
Definition DIGIT : abnf := Chr is_DIGIT.
(** digit-nz = %x31-39 *)
Definition digit_nz : abnf := Chr (fun b => 0x31 <= bN b <= 0x39).

(** ** Conditions *)
Definition value (P : N -> Prop) (t : bytes) : Prop := exists n, digits t n /\ P n.
(** "Unsigned 32-bit integer (0 <= n < 4,294,967,296)" *)
Definition bits32 : bytes -> Prop := value (fun n => n < 4294967296).
Definition nz_bits32 : bytes -> Prop := value (fun n => 0 < n < 4294967296).
(** "Unsigned 63-bit integer (0 <= n <= 9,223,372,036,854,775,807)" *)
Definition bits63 : bytes -> Prop := value (fun n => n <= 9223372036854775807).
Definition bits64 : bytes -> Prop := value (fun n => n < 18446744073709551616).
Definition nz_bits64 : bytes -> Prop := value (fun n => 0 < n < 18446744073709551616).
(** What follows the announcement of a literal is as long as announced. *)
Definition literal_text (start : bytes) (eol : bytes -> Prop) (X : byte -> Prop) (t : bytes) : Prop :=
  exists d p e s, t = start ++ d ++ p ++ bs "}" ++ e ++ s /\
    d <> [] /\ digits d (N.of_nat (length s)) /\ N.of_nat (length s) < 4294967296 /\
    (p = [] \/ p = bs "+") /\ eol e /\ Forall X s.
Definition crlf_text (t : bytes) : Prop := t = [bCR; bLF].
Definition lf_text (t : bytes) : Prop := t = [bLF].
(** A text between quotes in which the special characters are escaped, and which is UTF-8 *)
Definition utf8_text (X : byte -> Prop) (t : bytes) : Prop :=
  utf8_ok t = true /\ exists s, quoted_body t s /\ Forall X s.
(** The last symbol has no bits to spare. *)
Definition canonical (t : bytes) : Prop := exists p, base64 p t.
(** The date exists. *)
Definition month_names : list (bytes * N) :=
  [(bs "Jan", 1); (bs "Feb", 2); (bs "Mar", 3); (bs "Apr", 4); (bs "May", 5); (bs "Jun", 6);
   (bs "Jul", 7); (bs "Aug", 8); (bs "Sep", 9); (bs "Oct", 10); (bs "Nov", 11); (bs "Dec", 12)].
Definition month_text (t : bytes) (m : N) : Prop := exists s, In (s, m) month_names /\ same_letters t s.
Definition date_exists (t : bytes) : Prop :=
  exists td tm ty y m d, t = td ++ bs "-" ++ tm ++ bs "-" ++ ty /\
    digits td d /\ month_text tm m /\ digits ty y /\ real_date (mkDate y m d).
(** The date and time exist, and the zone is less than a day off. *)
Definition date_time_exists (t : bytes) : Prop :=
  exists sp td tm ty th ti ts sign zh zm y m d h i s oh om,
    t = [bDQ] ++ sp ++ td ++ bs "-" ++ tm ++ bs "-" ++ ty ++ bs " " ++ th ++ bs ":" ++ ti ++ bs ":" ++ ts
          ++ bs " " ++ sign ++ zh ++ zm ++ [bDQ] /\
    (sp = [] \/ sp = bs " ") /\ (sign = bs "+" \/ sign = bs "-") /\ digits td d /\ month_text tm m /\ digits ty y /\
    digits th h /\ digits ti i /\ digits ts s /\ length zh = 2%nat /\ digits zh oh /\ digits zm om /\
    real_date (mkDate y m d) /\ h < 24 /\ i < 60 /\ s < 60 /\ 60 * oh + om < 1440.
(** No [*] *)
Definition no_asterisk (t : bytes) : Prop := ~ In "*"%byte t.

(** The text does not start with a bracket. *)
Definition no_code (t : bytes) : Prop := forall u, t <> bs "[" ++ u.
(** A response code with a list of charsets; it is the only known code that may contain a closing bracket. *)
Definition charset_text (t : bytes) : Prop :=
  some_of ATOM_CHAR t \/ exists w s, t = [bDQ] ++ w ++ [bDQ] /\ quoted_body w s /\ many_of TEXT_CHAR s.
Inductive charsets_text : bytes -> Prop :=
| charsets_one t : charset_text t -> charsets_text t
| charsets_more t u : charset_text t -> charsets_text u -> charsets_text (t ++ bs " " ++ u).
Definition badcharset_text (t : bytes) : Prop :=
  exists k l, t = k ++ bs "(" ++ l ++ bs ")" /\ same_letters k (bs "BADCHARSET ") /\ charsets_text l.
(** A body of type message/rfc822 *)
Definition not_message (t : bytes) : Prop :=
  forall k u, t = k ++ u -> ~ same_letters k (bs """MESSAGE"" ""RFC822""").

(** One level down; below the last level nothing is accepted. *)
Definition deeper (n : nat) (f : nat -> abnf) : abnf :=
  match n with O => Beyond (f O) | S n => f n end.

Section Rules.
Context {F : features}.

(** If a text starts with such a code, it goes on with the human-readable text (which is missing
    from some messages, a quirk). *)
Definition one_code (t : bytes) : Prop :=
  forall c u, t = bs "[" ++ c ++ bs "]" ++ u -> badcharset_text c ->
    (exists x, u = bs " " ++ x /\ some_of TEXT_CHAR x) \/ (quirk_missing_text = true /\ u = []).

Definition rules (r : rule) : abnf :=
  match r with
  (* ** Tokens: core.rs *)
  | CRLF => Str [bCR; bLF] / Extra (Feature quirk_crlf_relaxed (Str [bLF]))
  | Number => Where bits32 (some DIGIT)
  | Number64 => Where bits63 (some DIGIT) / Extra (Where bits64 (some DIGIT))
  (* leading zeros are accepted *)
  | NzNumber => Where nz_bits32 (digit_nz ^ Many DIGIT) / Extra (Where nz_bits32 (some DIGIT))
  | Atom => some (Chr ATOM_CHAR)
  | Tag => some (Chr TAG_CHAR)
  | Astring => some (Chr ASTRING_CHAR) / String_
  | String_ => Quoted / Literal
      (* RFC 6855: *uQUOTED-CHAR; the crate takes CR, LF and NUL for such characters *)
      / Feature ext_utf8 (DQUOTE ^ Prose (utf8_text (fun b => CHAR8 b /\ b <> bCR /\ b <> bLF)) ^ DQUOTE)
      / Extra (Feature ext_utf8 (DQUOTE ^ Prose (utf8_text (fun _ => True)) ^ DQUOTE))
  | Quoted => DQUOTE ^ Many QuotedChar ^ DQUOTE
  | QuotedChar => Chr (fun b => TEXT_CHAR b /\ ~ quoted_specials b) / "\" ^ Chr quoted_specials
  (* literal = "{" number ["+"] "}" CRLF *CHAR8 *)
  | Literal => Prose (literal_text (bs "{") crlf_text CHAR8)
      / Extra (Feature quirk_crlf_relaxed (Prose (literal_text (bs "{") lf_text CHAR8)))
  (* literal8 = "~{" number ["+"] "}" CRLF *OCTET *)
  | Literal8 => Prose (literal_text (bs "~{") crlf_text (fun _ => True))
      / Extra (Feature quirk_crlf_relaxed (Prose (literal_text (bs "~{") lf_text (fun _ => True))))
  | Nil => "NIL"
  | Nstring => String_ / Nil
  | Charset => Atom / Quoted
  | Base64 => Limit canonical (Many (times 4 Base64Char) ^ opt Base64Terminal)
  | Base64Char => Chr (fun b => exists v, b64_value b v)
  | Base64Terminal => Base64Char ^ Base64Char ^ "==" / Base64Char ^ Base64Char ^ Base64Char ^ "="
  | Text => some (Chr TEXT_CHAR)
  (* ** sequence.rs, mailbox.rs, flag.rs *)
  | SequenceSet => (SeqNumber / SeqRange) ^ Many ("," ^ (SeqNumber / SeqRange))
  | SeqRange => SeqNumber ^ ":" ^ SeqNumber
  | SeqNumber => NzNumber / "*"
  | Mailbox => "INBOX" / Astring
  | ListMailbox => some (Chr LIST_CHAR) / String_
  | Flag => "\Answered" / "\Flagged" / "\Deleted" / "\Seen" / "\Draft" / FlagKeyword / FlagExtension
  | FlagKeyword => Atom
  | FlagExtension => "\" ^ Atom
  | FlagList => "(" ^ opt (Flag ^ Many (SP ^ Flag)) ^ ")"
  (* ** datetime.rs *)
  | Date => DateText / DQUOTE ^ DateText ^ DQUOTE
  | DateText => Limit date_exists (DateDay ^ "-" ^ DateMonth ^ "-" ^ DateYear)
  | DateDay => DIGIT / DIGIT ^ DIGIT
  | DateMonth => "Jan" / "Feb" / "Mar" / "Apr" / "May" / "Jun" / "Jul" / "Aug" / "Sep" / "Oct" / "Nov" / "Dec"
  | DateYear => times 4 DIGIT
  | DateTime => Limit date_time_exists
      (DQUOTE ^ DateDayFixed ^ "-" ^ DateMonth ^ "-" ^ DateYear ^ SP ^ Time ^ SP ^ Zone ^ DQUOTE)
  | DateDayFixed => SP ^ DIGIT / times 2 DIGIT
  | Time => times 2 DIGIT ^ ":" ^ times 2 DIGIT ^ ":" ^ times 2 DIGIT
  | Zone => ("+" / "-") ^ times 4 DIGIT
  (* ** search.rs, extensions/condstore_qresync.rs *)
  | Search => "SEARCH" ^ opt (SP ^ "CHARSET" ^ SP ^ Charset) ^ some (SP ^ SearchKey 8)
  | SearchKey n =>
      "ALL" / "ANSWERED" / "BCC" ^ SP ^ Astring / "BEFORE" ^ SP ^ Date / "BODY" ^ SP ^ Astring
      / "CC" ^ SP ^ Astring / "DELETED" / "FLAGGED" / "FROM" ^ SP ^ Astring
      / "KEYWORD" ^ SP ^ FlagKeyword / "NEW" / "OLD" / "ON" ^ SP ^ Date / "RECENT" / "SEEN"
      / "SINCE" ^ SP ^ Date / "SUBJECT" ^ SP ^ Astring / "TEXT" ^ SP ^ Astring / "TO" ^ SP ^ Astring
      / "UNANSWERED" / "UNDELETED" / "UNFLAGGED" / "UNKEYWORD" ^ SP ^ FlagKeyword / "UNSEEN"
      / "DRAFT" / "HEADER" ^ SP ^ HeaderFldName ^ SP ^ Astring / "LARGER" ^ SP ^ Number
      / deeper n (fun n => "NOT" ^ SP ^ SearchKey n)
      / deeper n (fun n => "OR" ^ SP ^ SearchKey n ^ SP ^ SearchKey n)
      / "SENTBEFORE" ^ SP ^ Date / "SENTON" ^ SP ^ Date / "SENTSINCE" ^ SP ^ Date
      / "SMALLER" ^ SP ^ Number / "UID" ^ SP ^ SequenceSet / "UNDRAFT"
      / Feature ext_condstore_qresync SearchModsequence
      / SequenceSet
      / deeper n (fun n => "(" ^ (SearchKey n ^ Many (SP ^ SearchKey n)) ^ ")")
  | SearchCriteria => Charset ^ some (SP ^ SearchKey 8)
  | HeaderFldName => Astring
  | SearchModsequence => "MODSEQ" ^ opt SearchModseqExt ^ SP ^ ModSequenceValzer
  | SearchModseqExt => SP ^ EntryName ^ SP ^ EntryTypeReq
  | EntryName => EntryFlagName
  | EntryFlagName => DQUOTE ^ "/flags/" ^ AttrFlag ^ DQUOTE
  | AttrFlag => "\\Answered" / "\\Flagged" / "\\Deleted" / "\\Seen" / "\\Draft" / AttrFlagKeyword
      / AttrFlagExtension
  | AttrFlagKeyword => Atom
  | AttrFlagExtension => "\\" ^ Atom
  | EntryTypeReq => EntryTypeResp / "all"
  | EntryTypeResp => "priv" / "shared"
  | ModSequenceValue => Where nz_bits64 (some DIGIT)
  | ModSequenceValzer => "0" / ModSequenceValue / Extra (Where bits64 (some DIGIT))
  (* ** fetch.rs, extensions/binary.rs, command.rs:580-780 *)
  | Fetch => "FETCH" ^ SP ^ SequenceSet ^ SP
      ^ ("ALL" / "FULL" / "FAST" / FetchAtt / "(" ^ (FetchAtt ^ Many (SP ^ FetchAtt)) ^ ")"
         / Extra ("(" ^ ")"))
      ^ opt FetchModifiers
  | FetchAtt => "ENVELOPE" / "FLAGS" / "INTERNALDATE" / "RFC822" ^ opt (".HEADER" / ".SIZE" / ".TEXT")
      / "BODY" ^ opt "STRUCTURE" / "UID"
      / "BODY" ^ Section_ ^ opt ("<" ^ Number ^ "." ^ NzNumber ^ ">")
      / "BODY.PEEK" ^ Section_ ^ opt ("<" ^ Number ^ "." ^ NzNumber ^ ">")
      / "BINARY" ^ SectionBinary ^ opt Partial / "BINARY.PEEK" ^ SectionBinary ^ opt Partial
      / "BINARY.SIZE" ^ SectionBinary
      / Feature ext_condstore_qresync "MODSEQ"
  | Section_ => "[" ^ opt SectionSpec ^ "]"
  | SectionSpec => SectionMsgtext / SectionPart ^ opt ("." ^ SectionText)
  | SectionMsgtext => "HEADER" / "HEADER.FIELDS" ^ opt ".NOT" ^ SP ^ HeaderList / "TEXT"
  | SectionText => SectionMsgtext / "MIME"
  | SectionPart => NzNumber ^ Many ("." ^ NzNumber)
  | HeaderList => "(" ^ (HeaderFldName ^ Many (SP ^ HeaderFldName)) ^ ")"
  | SectionBinary => "[" ^ opt SectionPart ^ "]"
  | Partial => "<" ^ Number ^ "." ^ NzNumber ^ ">"
  | FetchModifiers => Feature ext_condstore_qresync (SP ^ "(" ^ (FetchModifier ^ Many (SP ^ FetchModifier)) ^ ")")
  | FetchModifier => ChgsinceFetchMod / RexpungesFetchMod
  | ChgsinceFetchMod => "CHANGEDSINCE" ^ SP ^ ModSequenceValue
  | RexpungesFetchMod => "VANISHED"
  | Store => "STORE" ^ SP ^ SequenceSet ^ opt StoreModifiers ^ SP ^ StoreAttFlags
  | StoreModifiers => Feature ext_condstore_qresync (SP ^ "(" ^ (StoreModifier ^ Many (SP ^ StoreModifier)) ^ ")")
  | StoreModifier => "UNCHANGEDSINCE" ^ SP ^ ModSequenceValzer
  | StoreAttFlags => (opt ("+" / "-") ^ "FLAGS" ^ opt ".SILENT") ^ SP ^ (FlagList / Flag ^ Many (SP ^ Flag))
  (* ** command.rs; x-command is not supported *)
  | Command => Tag ^ SP ^ (CommandAny / CommandAuth / CommandNonauth / CommandSelect) ^ CRLF
  | CommandAny => "CAPABILITY" / "LOGOUT" / "NOOP" / Feature ext_id Id
  | CommandAuth => Append / Create / Delete / Examine / List_ / Lsub / Rename / Select / Status
      / Subscribe / Unsubscribe / Idle / Enable / Compress / Getquota / Getquotaroot / Setquota
      / Feature ext_metadata Setmetadata / Feature ext_metadata Getmetadata
      / Feature ext_namespace Namespace_
  | CommandNonauth => Login / Authenticate / Feature starttls "STARTTLS"
  | CommandSelect => "CHECK" / "CLOSE" / "EXPUNGE" / UidExpunge / Copy / Fetch / Store / Uid / Search
      / Sort / Thread / "UNSELECT" / Move
  | Append => "APPEND" ^ SP ^ Mailbox ^ opt (SP ^ FlagList) ^ opt (SP ^ DateTime) ^ SP ^ (Literal / Literal8)
  | Create => "CREATE" ^ SP ^ Mailbox
  | Delete => "DELETE" ^ SP ^ Mailbox
  | Examine => "EXAMINE" ^ SP ^ Mailbox ^ opt SelectParams
  | List_ => "LIST" ^ SP ^ Mailbox ^ SP ^ ListMailbox
  | Lsub => "LSUB" ^ SP ^ Mailbox ^ SP ^ ListMailbox
  | Rename => "RENAME" ^ SP ^ Mailbox ^ SP ^ Mailbox
  | Select => "SELECT" ^ SP ^ Mailbox ^ opt SelectParams
  | SelectParams => Feature ext_condstore_qresync (SP ^ "(" ^ (SelectParam ^ Many (SP ^ SelectParam)) ^ ")")
  | SelectParam => CondstoreParam
      / "QRESYNC" ^ SP ^ "(" ^ Uidvalidity ^ SP ^ ModSequenceValue ^ opt (SP ^ KnownUids)
        ^ opt (SP ^ SeqMatchData) ^ ")"
  | CondstoreParam => "CONDSTORE"
  | Uidvalidity => NzNumber
  (* "* is not allowed", but accepted *)
  | KnownUids => Where no_asterisk SequenceSet / Extra SequenceSet
  | SeqMatchData => "(" ^ KnownSequenceSet ^ SP ^ KnownUidSet ^ ")"
  | KnownSequenceSet => Where no_asterisk SequenceSet / Extra SequenceSet
  | KnownUidSet => Where no_asterisk SequenceSet / Extra SequenceSet
  | Status => "STATUS" ^ SP ^ Mailbox ^ SP ^ ("(" ^ (StatusAtt ^ Many (SP ^ StatusAtt)) ^ ")" / Extra ("(" ^ ")"))
  | StatusAtt => "MESSAGES" / "RECENT" / "UIDNEXT" / "UIDVALIDITY" / "UNSEEN"
      / "DELETED" / "DELETED-STORAGE" (* RFC 9208 *)
      / Feature ext_condstore_qresync "HIGHESTMODSEQ"
  | Subscribe => "SUBSCRIBE" ^ SP ^ Mailbox
  | Unsubscribe => "UNSUBSCRIBE" ^ SP ^ Mailbox
  | Login => "LOGIN" ^ SP ^ Userid ^ SP ^ Password
  | Userid => Astring
  | Password => Astring
  (* the lines that follow are messages of their own (AuthenticateData) *)
  | Authenticate => "AUTHENTICATE" ^ SP ^ AuthType ^ opt (SP ^ (Base64 / "="))
  | AuthType => Atom
  | Copy => "COPY" ^ SP ^ SequenceSet ^ SP ^ Mailbox
  | Move => "MOVE" ^ SP ^ SequenceSet ^ SP ^ Mailbox
  | Uid => "UID" ^ SP ^ (Copy / Fetch / Search / Store / Move)
  | UidExpunge => "UID" ^ SP ^ "EXPUNGE" ^ SP ^ SequenceSet
  (* ** extensions *)
  | IdParam => String_ ^ SP ^ Nstring
  | Id => "ID" ^ SP ^ IdParamsList
  | IdParamsList => "(" ^ opt (IdParam ^ Many (SP ^ IdParam)) ^ ")" / Nil
      / Extra (Feature quirk_trailing_space_id
          ("(" ^ opt (IdParam ^ Many (SP ^ IdParam)) ^ SP ^ ")"))
  | Idle => "IDLE" (* the rest of the rule, CRLF "DONE", is a message of its own (IdleDone) *)
  | Enable => "ENABLE" ^ some (SP ^ Capability)
  | Capability => "AUTH=" ^ AuthType / Atom
  | Compress => "COMPRESS" ^ SP ^ Algorithm
  | Algorithm => "DEFLATE"
  | Namespace_ => "NAMESPACE"
  | Getquota => "GETQUOTA" ^ SP ^ QuotaRootName
  | Getquotaroot => "GETQUOTAROOT" ^ SP ^ Mailbox
  | Setquota => "SETQUOTA" ^ SP ^ QuotaRootName ^ SP ^ SetquotaList
  | SetquotaList => "(" ^ opt (SetquotaResource ^ Many (SP ^ SetquotaResource)) ^ ")"
  | SetquotaResource => ResourceName ^ SP ^ ResourceLimit
  | QuotaRootName => Astring
  | ResourceName => "STORAGE" / "MESSAGE" / "MAILBOX" / "ANNOTATION-STORAGE" / ResourceNameExt
  | ResourceNameExt => Atom
  | ResourceLimit => Number64
  | Setmetadata => "SETMETADATA" ^ SP ^ Mailbox ^ SP ^ EntryValues
  | EntryValues => "(" ^ (EntryValue ^ Many (SP ^ EntryValue)) ^ ")"
  | EntryValue => Entry ^ SP ^ Value
  | Entry => Astring
  | Value => Nstring / Literal8
  | Getmetadata => "GETMETADATA" ^ opt (SP ^ GetmetadataOptions) ^ SP ^ Mailbox ^ SP ^ Entries
  | GetmetadataOptions => "(" ^ (GetmetadataOption ^ Many (SP ^ GetmetadataOption)) ^ ")"
  | GetmetadataOption => MaxsizeOpt / ScopeOpt
  | MaxsizeOpt => "MAXSIZE" ^ SP ^ Number
  | ScopeOpt => "DEPTH" ^ SP ^ ("0" / "1" / "infinity")
  | Entries => Entry / "(" ^ (Entry ^ Many (SP ^ Entry)) ^ ")"
  | Sort => opt ("UID" ^ SP) ^ "SORT" ^ SP ^ SortCriteria ^ SP ^ SearchCriteria
  | SortCriteria => "(" ^ (SortCriterion ^ Many (SP ^ SortCriterion)) ^ ")"
  | SortCriterion => opt ("REVERSE" ^ SP) ^ SortKey
  | SortKey => "ARRIVAL" / "CC" / "DATE" / "FROM" / "SIZE" / "SUBJECT" / "TO"
      / "DISPLAYFROM" / "DISPLAYTO" (* RFC 5957 *)
  | Thread => opt ("UID" ^ SP) ^ "THREAD" ^ SP ^ ThreadAlg ^ SP ^ SearchCriteria
  | ThreadAlg => "ORDEREDSUBJECT" / "REFERENCES" / ThreadAlgExt
  | ThreadAlgExt => Atom
  (* ** auth.rs, extensions/idle.rs *)
  | AuthenticateData => (Base64 / "*") ^ CRLF
  | IdleDone => "DONE" ^ CRLF
  (* ** response.rs *)
  | Greeting => "*" ^ SP ^ (RespCondAuth / RespCondBye) ^ CRLF
  | RespCondAuth => ("OK" / "PREAUTH") ^ SP ^ RespText
  | RespCondBye => "BYE" ^ SP ^ RespText
  (* resp-text = ["[" resp-text-code "]" SP] text *)
  | RespText => Limit no_code Text
      / Limit one_code ("[" ^ RespTextCode ^ "]" ^ SP ^ Text)
      / Extra (Feature quirk_missing_text (Limit one_code ("[" ^ RespTextCode ^ "]")))
  | RespTextCode => "ALERT" / "BADCHARSET" ^ opt (SP ^ "(" ^ (Charset ^ Many (SP ^ Charset)) ^ ")")
      / CapabilityData / "PARSE" / "PERMANENTFLAGS" ^ SP ^ "(" ^ opt (FlagPerm ^ Many (SP ^ FlagPerm)) ^ ")"
      / "READ-ONLY" / "READ-WRITE" / "TRYCREATE" / "UIDNEXT" ^ SP ^ NzNumber
      / "UIDVALIDITY" ^ SP ^ NzNumber / "UNSEEN" ^ SP ^ NzNumber
      / "COMPRESSIONACTIVE" / "OVERQUOTA" / "TOOBIG"
      / Feature ext_metadata ("METADATA" ^ SP ^ MetadataCode) / "UNKNOWN-CTE"
      / RespCodeApnd / RespCodeCopy / "UIDNOTSTICKY" (* RFC 4315 *)
      / Feature ext_condstore_qresync ("HIGHESTMODSEQ" ^ SP ^ ModSequenceValue)
      / Feature ext_condstore_qresync "NOMODSEQ"
      / Feature ext_condstore_qresync ("MODIFIED" ^ SP ^ SequenceSet)
      / Feature ext_condstore_qresync "CLOSED"
      / Atom ^ opt (SP ^ some (Chr (fun b => TEXT_CHAR b /\ b <> "]"%byte)))
      (* unknown codes may consist of anything *)
      / Extra (Many (Chr (fun b => b <> "]"%byte /\ b <> bCR /\ b <> bLF)))
  (* IMAP4rev1 need not be there *)
  | CapabilityData => "CAPABILITY" ^ Many (SP ^ Capability) ^ SP ^ "IMAP4rev1" ^ Many (SP ^ Capability)
      / Extra ("CAPABILITY" ^ some (SP ^ Capability))
      / Extra (Feature quirk_trailing_space_capability ("CAPABILITY" ^ some (SP ^ Capability) ^ SP))
  | RespCodeApnd => "APPENDUID" ^ SP ^ NzNumber ^ SP ^ AppendUid
  | AppendUid => Uniqueid
  | Uniqueid => NzNumber
  | RespCodeCopy => "COPYUID" ^ SP ^ NzNumber ^ SP ^ UidSet ^ SP ^ UidSet
  | UidSet => (Uniqueid / UidRange) ^ Many ("," ^ (Uniqueid / UidRange))
  | UidRange => Uniqueid ^ ":" ^ Uniqueid
  (* a session is *(continue-req / response-data) response-done; each of them is a message *)
  | Response => ContinueReq / ResponseData / ResponseDone
  | ContinueReq => "+" ^ SP ^ (RespText / Base64) ^ CRLF
      / Extra (Feature quirk_empty_continue_req ("+" ^ CRLF))
  | ResponseData => "*" ^ SP ^ (RespCondState / RespCondBye / MailboxData / MessageData / CapabilityData
      / EnableData / Feature ext_id IdResponse) ^ CRLF
  | RespCondState => ("OK" / "NO" / "BAD") ^ SP ^ RespText
  | ResponseDone => ResponseTagged / ResponseFatal
  | ResponseTagged => Tag ^ SP ^ RespCondState ^ CRLF
  | ResponseFatal => "*" ^ SP ^ RespCondBye ^ CRLF
  (* ** mailbox.rs, status.rs, flag.rs *)
  | MailboxData => "FLAGS" ^ SP ^ FlagList / "LIST" ^ SP ^ MailboxList / "LSUB" ^ SP ^ MailboxList
      / "SEARCH" ^ Many (SP ^ NzNumber) ^ opt (SP ^ SearchSortModSeq)
      / Extra (Feature quirk_trailing_space_search
          ("SEARCH" ^ Many (SP ^ NzNumber) ^ opt (SP ^ SearchSortModSeq) ^ SP))
      / "SORT" ^ Many (SP ^ NzNumber) ^ opt (SP ^ SearchSortModSeq) (* RFC 5256, RFC 7162 *)
      / ThreadData
      / "STATUS" ^ SP ^ Mailbox ^ SP ^ "(" ^ opt StatusAttList ^ ")"
      / Extra (Feature quirk_trailing_space_status ("STATUS" ^ SP ^ Mailbox ^ SP ^ "(" ^ opt StatusAttList ^ ")" ^ SP))
      / Feature ext_metadata MetadataResp / Feature ext_namespace NamespaceResponse
      / Number ^ SP ^ "EXISTS" / Number ^ SP ^ "RECENT" / QuotarootResponse / QuotaResponse
  | SearchSortModSeq => Feature ext_condstore_qresync ("(" ^ "MODSEQ" ^ SP ^ ModSequenceValue ^ ")")
  | MailboxList => "(" ^ opt MbxListFlags ^ ")" ^ SP ^ (DQUOTE ^ QuotedChar ^ DQUOTE / Nil) ^ SP ^ Mailbox
  | MbxListFlags => Many (MbxListOflag ^ SP) ^ MbxListSflag ^ Many (SP ^ MbxListOflag)
      / MbxListOflag ^ Many (SP ^ MbxListOflag)
  | MbxListOflag => "\Noinferiors" / FlagExtension
  | MbxListSflag => "\Noselect" / "\Marked" / "\Unmarked"
  | StatusAttList => StatusAttVal ^ Many (SP ^ StatusAttVal)
  | StatusAttVal => "MESSAGES" ^ SP ^ Number / "RECENT" ^ SP ^ Number / "UIDNEXT" ^ SP ^ NzNumber
      / "UIDVALIDITY" ^ SP ^ NzNumber / "UNSEEN" ^ SP ^ Number
      / "DELETED" ^ SP ^ Number / "DELETED-STORAGE" ^ SP ^ Number64 (* RFC 9208 *)
      / Feature ext_condstore_qresync ("HIGHESTMODSEQ" ^ SP ^ ModSequenceValzer)
  | FlagFetch => Flag / "\Recent"
  | FlagPerm => Flag / "\*"
  (* ** extensions *)
  | EnableData => "ENABLED" ^ Many (SP ^ Capability)
  | IdResponse => "ID" ^ SP ^ IdParamsList
  | MetadataResp => "METADATA" ^ SP ^ Mailbox ^ SP ^ (EntryValues / EntryList)
  | EntryList => Entry ^ Many (SP ^ Entry)
  | MetadataCode => "LONGENTRIES" ^ SP ^ Number / "MAXSIZE" ^ SP ^ Number / "TOOMANY" / "NOPRIVATE"
  | NamespaceResponse => "NAMESPACE" ^ SP ^ Namespaces ^ SP ^ Namespaces ^ SP ^ Namespaces
  | Namespaces => Nil / "(" ^ some NamespaceDescr ^ ")"
  | NamespaceDescr => "(" ^ String_ ^ SP ^ (DQUOTE ^ QuotedChar ^ DQUOTE / Nil) ^ Many NamespaceResponseExtension ^ ")"
  | NamespaceResponseExtension => SP ^ String_ ^ SP ^ "(" ^ (String_ ^ Many (SP ^ String_)) ^ ")"
  | QuotarootResponse => "QUOTAROOT" ^ SP ^ Mailbox ^ Many (SP ^ QuotaRootName)
  | QuotaResponse => "QUOTA" ^ SP ^ QuotaRootName ^ SP ^ QuotaList
  | QuotaList => "(" ^ (QuotaResource ^ Many (SP ^ QuotaResource)) ^ ")"
  | QuotaResource => ResourceName ^ SP ^ ResourceUsage ^ SP ^ ResourceLimit
      / Extra (Feature quirk_excessive_space_quota_resource
          (ResourceName ^ some SP ^ ResourceUsage ^ some SP ^ ResourceLimit))
  | ResourceUsage => Number64
  | ThreadData => "THREAD" ^ opt (SP ^ some (ThreadList 7))
  | ThreadList n => "(" ^ (ThreadMembers n / ThreadNested n) ^ ")"
  | ThreadMembers n => (NzNumber ^ Many (SP ^ NzNumber)) ^ opt (SP ^ ThreadNested n)
  | ThreadNested n => deeper n (fun n => ThreadList n ^ some (ThreadList n))
  (* ** fetch.rs *)
  | MessageData => NzNumber ^ SP ^ ("EXPUNGE" / "FETCH" ^ SP ^ MsgAtt)
      / Feature ext_condstore_qresync ExpungedResp
  | ExpungedResp => "VANISHED" ^ opt (SP ^ "(EARLIER)") ^ SP ^ KnownUids
  | MsgAtt => "(" ^ ((MsgAttDynamic / MsgAttStatic) ^ Many (SP ^ (MsgAttDynamic / MsgAttStatic))) ^ ")"
  | MsgAttDynamic => "FLAGS" ^ SP ^ "(" ^ opt (FlagFetch ^ Many (SP ^ FlagFetch)) ^ ")"
      / Feature ext_condstore_qresync ("MODSEQ" ^ SP ^ "(" ^ ModSequenceValue ^ ")") (* RFC 7162 *)
  | MsgAttStatic => "ENVELOPE" ^ SP ^ Envelope / "INTERNALDATE" ^ SP ^ DateTime
      / "RFC822" ^ opt (".HEADER" / ".TEXT") ^ SP ^ Nstring / "RFC822.SIZE" ^ SP ^ Number
      / "BODY" ^ opt "STRUCTURE" ^ SP ^ Body 6
      / "BODY" ^ Section_ ^ opt ("<" ^ Number ^ ">") ^ SP ^ Nstring / "UID" ^ SP ^ Uniqueid
      / "BINARY" ^ SectionBinary ^ SP ^ (Nstring / Literal8) / "BINARY.SIZE" ^ SectionBinary ^ SP ^ Number
  (* ** envelope.rs *)
  | Envelope => "(" ^ EnvDate ^ SP ^ EnvSubject ^ SP ^ EnvFrom ^ SP ^ EnvSender ^ SP ^ EnvReplyTo ^ SP
      ^ EnvTo ^ SP ^ EnvCc ^ SP ^ EnvBcc ^ SP ^ EnvInReplyTo ^ SP ^ EnvMessageId ^ ")"
  | EnvDate => Nstring
  | EnvSubject => Nstring
  | EnvFrom => "(" ^ some Address ^ ")" / Nil
  | EnvSender => "(" ^ some Address ^ ")" / Nil
  | EnvReplyTo => "(" ^ some Address ^ ")" / Nil
  | EnvTo => "(" ^ some Address ^ ")" / Nil
  | EnvCc => "(" ^ some Address ^ ")" / Nil
  | EnvBcc => "(" ^ some Address ^ ")" / Nil
  | EnvInReplyTo => Nstring
  | EnvMessageId => Nstring
  | Address => "(" ^ AddrName ^ SP ^ AddrAdl ^ SP ^ AddrMailbox ^ SP ^ AddrHost ^ ")"
      / Extra (Feature quirk_spaces_between_addresses
          (Many SP ^ "(" ^ AddrName ^ SP ^ AddrAdl ^ SP ^ AddrMailbox ^ SP ^ AddrHost ^ ")"))
  | AddrName => Nstring
  | AddrAdl => Nstring
  | AddrMailbox => Nstring
  | AddrHost => Nstring
  (* ** body.rs *)
  | Body n => "(" ^ (BodyType1part / BodyTypeMpart n) ^ ")"
  | BodyType1part => (BodyTypeBasic / BodyTypeMsg / BodyTypeText) ^ opt (SP ^ BodyExt1part)
  | BodyTypeMpart n => deeper n (fun n => some (Body n) ^ SP ^ MediaSubtype ^ opt (SP ^ BodyExtMpart))
  (* "MESSAGE subtype MUST NOT be RFC822", but this is accepted *)
  | BodyTypeBasic => Where not_message (MediaBasic ^ SP ^ BodyFields) / Extra (MediaBasic ^ SP ^ BodyFields)
  (* the levels are counted anew *)
  | BodyTypeMsg => MediaMessage ^ SP ^ BodyFields ^ SP ^ Envelope ^ SP ^ Body 5 ^ SP ^ BodyFldLines
  | BodyTypeText => MediaText ^ SP ^ BodyFields ^ SP ^ BodyFldLines
  | BodyFields => BodyFldParam ^ SP ^ BodyFldId ^ SP ^ BodyFldDesc ^ SP ^ BodyFldEnc ^ SP ^ BodyFldOctets
  | BodyFldParam => "(" ^ ((String_ ^ SP ^ String_) ^ Many (SP ^ (String_ ^ SP ^ String_))) ^ ")" / Nil
      / Extra ("(" ^ ")")
  | BodyFldId => Nstring
  | BodyFldDesc => Nstring
  | BodyFldEnc => String_ / Extra (Feature quirk_body_fld_enc_nil_to_empty Nil)
  | BodyFldOctets => Number / Extra (Feature quirk_rectify_numbers ("-" ^ Number))
  | BodyFldLines => Number
  | BodyExt1part => BodyFldMd5 ^ opt (SP ^ BodyFldDsp ^ opt (SP ^ BodyFldLang
      ^ opt (SP ^ BodyFldLoc ^ Many (SP ^ BodyExtension 7))))
  | BodyExtMpart => BodyFldParam ^ opt (SP ^ BodyFldDsp ^ opt (SP ^ BodyFldLang
      ^ opt (SP ^ BodyFldLoc ^ Many (SP ^ BodyExtension 7))))
  | BodyFldMd5 => Nstring
  | BodyFldDsp => "(" ^ String_ ^ SP ^ BodyFldParam ^ ")" / Nil
  | BodyFldLang => Nstring / "(" ^ (String_ ^ Many (SP ^ String_)) ^ ")"
  | BodyFldLoc => Nstring
  | BodyExtension n => Nstring / Number
      / deeper n (fun n => "(" ^ (BodyExtension n ^ Many (SP ^ BodyExtension n)) ^ ")")
  | MediaBasic => String_ ^ SP ^ MediaSubtype
  | MediaSubtype => String_
  | MediaMessage => DQUOTE ^ "MESSAGE" ^ DQUOTE ^ SP ^ DQUOTE ^ "RFC822" ^ DQUOTE
  | MediaText => DQUOTE ^ "TEXT" ^ DQUOTE ^ SP ^ MediaSubtype
  end.

(** [derives a t]: the text [t] belongs to [a]. [extras] and [limits]: whether the deviations of
    the crate from the documented syntax are taken into account. *)
Inductive derives (extras limits : bool) : abnf -> bytes -> Prop :=
| d_str s t : same_letters t s -> derives extras limits (Str s) t
| d_chr (X : byte -> Prop) b : X b -> derives extras limits (Chr X) [b]
| d_eps : derives extras limits Eps []
| d_cat a b t u : derives extras limits a t -> derives extras limits b u ->
    derives extras limits (Cat a b) (t ++ u)
| d_or_l a b t : derives extras limits a t -> derives extras limits (Or a b) t
| d_or_r a b t : derives extras limits b t -> derives extras limits (Or a b) t
| d_none a : derives extras limits (Many a) []
| d_more a t u : derives extras limits a t -> derives extras limits (Many a) u ->
    derives extras limits (Many a) (t ++ u)
| d_ref r t : derives extras limits (rules r) t -> derives extras limits (Ref r) t
| d_prose (P : bytes -> Prop) t : P t -> derives extras limits (Prose P) t
| d_where (P : bytes -> Prop) a t : derives extras limits a t -> P t -> derives extras limits (Where P a) t
| d_feature b a t : b = true -> derives extras limits a t -> derives extras limits (Feature b a) t
| d_extra a t : extras = true -> derives extras limits a t -> derives extras limits (Extra a) t
| d_limit (P : bytes -> Prop) a t : derives extras limits a t -> (limits = true -> P t) ->
    derives extras limits (Limit P a) t
| d_beyond a t : limits = false -> derives extras limits a t -> derives extras limits (Beyond a) t.

(** What the documentation says; what the crate accepts; what is in both *)
Definition documented : abnf -> bytes -> Prop := derives false false.
Definition accepted : abnf -> bytes -> Prop := derives true true.
Definition common : abnf -> bytes -> Prop := derives false true.
End Rules.
