(** Encoders: /repo/imap-codec/src/codec/encode.rs:261-2131 and the [EncodeIntoContext]
    implementations in /repo/imap-codec/src/extensions. Each function returns the operations
    the Rust method performs (see EncodeCtx.v). *)

From Verif Require Import Bytes Dec Features Nom Types Conv SeqSet Base64 Date EncodeCtx.

Section Encode.
Context {F : features}.

(** A keyword or separator. *)
Notation "'kw' s" := (W (bs s)) (at level 9, s at level 8).

(* encode.rs:2061-2077 join_serializable *)
Definition join {A} (sep : list op) (e : A -> list op) : list A -> list op :=
  fix join l :=
  match l with
  | [] => []
  | x :: l' => match l' with [] => e x | _ => e x ++ sep ++ join l' end
  end.
Definition spc : list op := [B bSP].
Definition joinsp {A} (e : A -> list op) (l : list A) : list op := join spc e l.
Definition paren (o : list op) : list op := B "("%byte :: o ++ [B ")"%byte].

(* encode.rs:2079-2100 List1OrNil *)
Definition list1_or_nil {A} (sep : list op) (e : A -> list op) (l : list A) : list op :=
  match l with [] => kw "NIL" | _ => paren (join sep e l) end.

(* encode.rs:263-273, 1223-1234: u32, u64, NonZeroU32, NonZeroU64 *)
Definition e_num (n : N) : list op := W (dec n).

(* encode.rs:286-290 Tag, 778-788 Atom and AtomExt, 1425-1429 Text *)
Definition e_bytes (s : bytes) : list op := W s.

(* encode.rs:801-814 Literal *)
Definition e_literal (l : literal_t) : list op := [Lit false (lit_mode_of l) (lit_data l)].
(* binary.rs:81-94 Literal8 *)
Definition e_literal8 (l : literal8_t) : list op := [Lit true (lit8_mode_of l) (lit8_data l)].
(* binary.rs:72-79 *)
Definition e_lit_or_lit8 (l : lit_or_lit8) : list op :=
  match l with LLiteral l => e_literal l | LLiteral8 l => e_literal8 l end.
(* encode.rs:816-820 Quoted; extensions/utf8.rs QuotedUtf8 *)
Definition e_quoted (s : bytes) : list op := B bDQ :: W (escape_quoted s) ++ [B bDQ].
(* encode.rs:790-799 IString *)
Definition e_istring (s : istring) : list op :=
  match s with
  | ILiteral l => e_literal l
  | IQuoted s => e_quoted s
  | IQuotedUtf8 s => e_quoted s
  end.
(* encode.rs:769-776 AString *)
Definition e_astring (a : astring) : list op :=
  match a with AAtom s => e_bytes s | AString s => e_istring s end.
(* encode.rs:1785-1792 NString *)
Definition e_nstring (n : nstring) : list op :=
  match n with Some s => e_istring s | None => kw "NIL" end.
(* encode.rs:1794-1801 NString8 *)
Definition e_nstring8 (n : nstring8) : list op :=
  match n with N8NString n => e_nstring n | N8Literal8 l => e_literal8 l end.
(* encode.rs:897-904 Charset *)
Definition e_charset (c : charset) : list op :=
  match c with CharsetAtom a => e_bytes a | CharsetQuoted q => e_quoted q end.
(* encode.rs:1662-1670 QuotedChar *)
Definition e_quoted_char (b : byte) : list op :=
  if beq b bBS then W [bBS; bBS] else if beq b bDQ then W [bBS; bDQ] else [B b].

(* encode.rs:2102-2130 List1AttributeValueOrNil *)
Definition e_pair {A B} (ea : A -> list op) (eb : B -> list op) (p : A * B) : list op :=
  ea (fst p) ++ spc ++ eb (snd p).
Definition e_params (l : list (istring * istring)) : list op :=
  list1_or_nil spc (e_pair e_istring e_istring) l.

(* encode.rs:822-835 Mailbox, MailboxOther *)
Definition e_mailbox (m : mailbox) : list op :=
  match m with MInbox => kw "INBOX" | MOther a => e_astring a end.
(* encode.rs:837-850 ListMailbox, ListCharString *)
Definition e_list_mailbox (m : list_mailbox) : list op :=
  match m with LMToken s => e_bytes s | LMString s => e_istring s end.

(* encode.rs:852-866 StatusDataItemName *)
Definition e_status_name (s : status_data_item_name) : list op :=
  match s with
  | SNMessages => kw "MESSAGES"
  | SNRecent => kw "RECENT"
  | SNUidNext => kw "UIDNEXT"
  | SNUidValidity => kw "UIDVALIDITY"
  | SNUnseen => kw "UNSEEN"
  | SNDeleted => kw "DELETED"
  | SNDeletedStorage => kw "DELETED-STORAGE"
  | SNHighestModSeq => kw "HIGHESTMODSEQ"
  end.

(* encode.rs:868-889 Flag, FlagFetch, FlagPerm; 1656-1660 FlagNameAttribute *)
Definition e_flag (f : flag) : list op := W (flag_str f).
Definition e_flag_fetch (f : flag_fetch) : list op :=
  match f with FFFlag f => e_flag f | FFRecent => kw "\Recent" end.
Definition e_flag_perm (f : flag_perm) : list op :=
  match f with FPFlag f => e_flag f | FPAsterisk => kw "\*" end.
Definition e_flag_name (f : flag_name_attribute) : list op := W (flag_name_attribute_str f).

(* encode.rs:891-895, 2024-2028 DateTime; 1070-1074 NaiveDate *)
Definition e_date_time (t : date_time) : list op :=
  B bDQ :: W (format_date_time t) ++ [B bDQ].
Definition e_date (d : naive_date) : list op := B bDQ :: W (format_date d) ++ [B bDQ].

(* encode.rs:1061-1068 SeqOrUid *)
Definition e_seq_or_uid (s : seq_or_uid) : list op :=
  match s with SValue n => e_num n | SAsterisk => kw "*" end.
(* encode.rs:1040-1059 Sequence *)
Definition e_sequence (s : sequence) : list op :=
  match (if quirk_always_normalize_sequence_sets then sequence_normalize s else s) with
  | SSingle a => e_seq_or_uid a
  | SRange a b => e_seq_or_uid a ++ kw ":" ++ e_seq_or_uid b
  end.
(* encode.rs:1026-1038 SequenceSet *)
Definition e_sequence_set (s : sequence_set) : list op :=
  join (kw ",") e_sequence
    (if quirk_always_normalize_sequence_sets then normalize s else s).

(* encode.rs:906-1024 SearchKey *)
Fixpoint e_search_key (k : search_key) : list op :=
  match k with
  | KAll => kw "ALL"
  | KAnswered => kw "ANSWERED"
  | KBcc s => kw "BCC " ++ e_astring s
  | KBefore d => kw "BEFORE " ++ e_date d
  | KBody s => kw "BODY " ++ e_astring s
  | KCc s => kw "CC " ++ e_astring s
  | KDeleted => kw "DELETED"
  | KFlagged => kw "FLAGGED"
  | KFrom s => kw "FROM " ++ e_astring s
  | KKeyword a => kw "KEYWORD " ++ e_bytes a
  | KNew => kw "NEW"
  | KOld => kw "OLD"
  | KOn d => kw "ON " ++ e_date d
  | KRecent => kw "RECENT"
  | KSeen => kw "SEEN"
  | KSince d => kw "SINCE " ++ e_date d
  | KSubject s => kw "SUBJECT " ++ e_astring s
  | KText s => kw "TEXT " ++ e_astring s
  | KTo s => kw "TO " ++ e_astring s
  | KUnanswered => kw "UNANSWERED"
  | KUndeleted => kw "UNDELETED"
  | KUnflagged => kw "UNFLAGGED"
  | KUnkeyword a => kw "UNKEYWORD " ++ e_bytes a
  | KUnseen => kw "UNSEEN"
  | KDraft => kw "DRAFT"
  | KHeader f v => kw "HEADER " ++ e_astring f ++ spc ++ e_astring v
  | KLarger n => kw "LARGER " ++ e_num n
  | KNot k => kw "NOT " ++ e_search_key k
  | KOr a b => kw "OR " ++ e_search_key a ++ spc ++ e_search_key b
  | KSentBefore d => kw "SENTBEFORE " ++ e_date d
  | KSentOn d => kw "SENTON " ++ e_date d
  | KSentSince d => kw "SENTSINCE " ++ e_date d
  | KSmaller n => kw "SMALLER " ++ e_num n
  | KUid s => kw "UID " ++ e_sequence_set s
  | KUndraft => kw "UNDRAFT"
  | KModSequence entry modseq =>
    kw "MODSEQ" ++
    match entry with
    | Some (f, t) =>
      W (bs " " ++ [bDQ] ++ bs "/flags/" ++ attribute_flag_str f ++ [bDQ]) ++
      W (bs " " ++ entry_type_req_str t)
    | None => []
    end ++ spc ++ e_num modseq
  | KSequenceSet s => e_sequence_set s
  | KAnd l => paren (join spc e_search_key l)
  end.

(* encode.rs:1093-1097 Macro *)
Definition e_macro (m : macro) : list op := W (macro_str m).

(* encode.rs:1217-1221 Part *)
Definition e_part (p : part) : list op := join (kw ".") e_num p.
(* encode.rs:1169-1215 Section *)
Definition e_part_dot (p : option part) : list op :=
  match p with Some p => e_part p ++ kw "." | None => [] end.
Definition e_section (s : section) : list op :=
  match s with
  | SecPart p => e_part p
  | SecHeader p => e_part_dot p ++ kw "HEADER"
  | SecHeaderFields p l => e_part_dot p ++ kw "HEADER.FIELDS (" ++ joinsp e_astring l ++ kw ")"
  | SecHeaderFieldsNot p l =>
    e_part_dot p ++ kw "HEADER.FIELDS.NOT (" ++ joinsp e_astring l ++ kw ")"
  | SecText p => e_part_dot p ++ kw "TEXT"
  | SecMime p => e_part p ++ kw ".MIME"
  end.
Definition e_opt {A} (e : A -> list op) (o : option A) : list op :=
  match o with Some a => e a | None => [] end.
Definition e_partial (p : N * N) : list op :=
  kw "<" ++ e_num (fst p) ++ kw "." ++ e_num (snd p) ++ kw ">".

(* encode.rs:1099-1167 MessageDataItemName *)
Definition e_item_name (i : item_name) : list op :=
  match i with
  | INBody => kw "BODY"
  | INBodyExt section partial peek =>
    (if peek then kw "BODY.PEEK[" else kw "BODY[") ++ e_opt e_section section ++ kw "]"
      ++ e_opt e_partial partial
  | INBodyStructure => kw "BODYSTRUCTURE"
  | INEnvelope => kw "ENVELOPE"
  | INFlags => kw "FLAGS"
  | INInternalDate => kw "INTERNALDATE"
  | INRfc822 => kw "RFC822"
  | INRfc822Header => kw "RFC822.HEADER"
  | INRfc822Size => kw "RFC822.SIZE"
  | INRfc822Text => kw "RFC822.TEXT"
  | INUid => kw "UID"
  | INBinary section partial peek =>
    kw "BINARY" ++ (if peek then kw ".PEEK" else []) ++ kw "[" ++ e_part section ++ kw "]"
      ++ e_opt e_partial partial
  | INBinarySize section => kw "BINARY.SIZE" ++ kw "[" ++ e_part section ++ kw "]"
  | INModSeq => kw "MODSEQ"
  end.
(* encode.rs:1076-1091 MacroOrMessageDataItemNames *)
Definition e_macro_or_items (m : macro_or_items) : list op :=
  match m with
  | MIMacro m => e_macro m
  | MIItems [i] => e_item_name i
  | MIItems l => paren (joinsp e_item_name l)
  end.

(* extensions/enable.rs:69-73 *)
Definition e_capability_enable (c : capability_enable) : list op := W (capability_enable_str c).
(* extensions/compress.rs:35-39 *)
Definition e_compression (a : compression_algorithm) : list op := W (compression_str a).
(* extensions/quota.rs:198-216 *)
Definition e_resource (r : resource) : list op := W (resource_str r).
Definition e_quota_get (q : quota_get) : list op :=
  e_resource (qg_resource q) ++ spc ++ e_num (qg_usage q) ++ spc ++ e_num (qg_limit q).
Definition e_quota_set (q : quota_set) : list op :=
  e_resource (qs_resource q) ++ spc ++ e_num (qs_limit q).
(* extensions/sort.rs:90-98 *)
Definition e_sort_criterion (c : sort_criterion) : list op :=
  (if so_reverse c then kw "REVERSE " else []) ++ W (sort_key_str (so_key c)).
(* extensions/thread.rs:31-45 *)
Definition e_threading_algorithm (a : threading_algorithm) : list op :=
  W (threading_algorithm_str a).
(* extensions/metadata.rs:220-308 *)
Definition e_entry_value (e : entry_value) : list op :=
  e_astring (ev_entry e) ++ spc ++ e_nstring8 (ev_value e).
Definition e_depth (d : depth) : list op :=
  match d with DepthNull => kw "0" | DepthOne => kw "1" | DepthInfinity => kw "INFINITY" end.
Definition e_get_metadata_option (o : get_metadata_option) : list op :=
  match o with
  | GMMaxSize n => kw "MAXSIZE " ++ e_num n
  | GMDepth d => kw "DEPTH " ++ e_depth d
  end.
Definition e_metadata_response (r : metadata_response) : list op :=
  match r with
  | MRWithValues l => paren (joinsp e_entry_value l)
  | MRWithoutValues l => joinsp e_astring l
  end.
Definition e_metadata_code (c : metadata_code) : list op :=
  match c with
  | MCLongEntries n => kw "LONGENTRIES " ++ e_num n
  | MCMaxSize n => kw "MAXSIZE " ++ e_num n
  | MCTooMany => kw "TOOMANY"
  | MCNoPrivate => kw "NOPRIVATE"
  end.
(* extensions/namespace.rs:121-173 *)
Definition e_delimiter (d : option byte) : list op :=
  match d with Some c => B bDQ :: e_quoted_char c ++ [B bDQ] | None => kw "NIL" end.
Definition e_namespace_ext (e : namespace_ext) : list op :=
  spc ++ e_istring (ne_key e) ++ spc ++ paren (joinsp e_istring (ne_values e)).
Definition e_namespace (n : namespace) : list op :=
  paren (e_istring (ns_prefix n) ++ spc ++ e_delimiter (ns_delimiter n)
    ++ flat_map e_namespace_ext (ns_extensions n)).
Definition e_namespaces (l : list namespace) : list op :=
  match l with [] => kw "NIL" | _ => paren (flat_map e_namespace l) end.
(* extensions/uidplus.rs [UidElement], [UidSet] *)
Definition e_uid_element (u : uid_element) : list op :=
  match u with UESingle n => e_num n | UERange a b => e_num a ++ kw ":" ++ e_num b end.
Definition e_uid_set (s : uid_set) : list op := join (kw ",") e_uid_element s.

(* encode.rs:617-651, 1582-1617: parameters of ID *)
Definition e_id_params (p : option (list (istring * nstring))) : list op :=
  match p with
  | None => kw "NIL"
  | Some [] => if quirk_id_empty_to_nil then kw "NIL" else kw "()"
  | Some l => paren (joinsp (e_pair e_istring e_nstring) l)
  end.

(* encode.rs:696-748 *)
Definition e_fetch_modifier (m : fetch_modifier) : list op :=
  match m with FMChangedSince n => kw "CHANGEDSINCE " ++ e_num n | FMVanished => kw "VANISHED" end.
Definition e_store_modifier (m : store_modifier) : list op :=
  match m with SMUnchangedSince n => kw "UNCHANGEDSINCE " ++ e_num n end.
Definition e_select_parameter (p : select_parameter) : list op :=
  match p with
  | SPCondStore => kw "CONDSTORE"
  | SPQResync v m k s =>
    kw "QRESYNC (" ++ e_num v ++ spc ++ e_num m
      ++ e_opt (fun k => spc ++ e_sequence_set k) k
      ++ e_opt (fun p => spc ++ paren (e_sequence_set (fst p) ++ spc ++ e_sequence_set (snd p))) s
      ++ kw ")"
  end.
(** [if !l.is_empty() { " (" join ")" }] *)
Definition e_opt_list {A} (e : A -> list op) (l : list A) : list op :=
  match l with [] => [] | _ => spc ++ paren (joinsp e l) end.

Definition e_uid (uid : bool) : list op := if uid then kw "UID " else [].

(* encode.rs:292-694 CommandBody *)
Definition e_command_body (c : command_body) : list op :=
  match c with
  | CCapability => kw "CAPABILITY"
  | CNoop => kw "NOOP"
  | CLogout => kw "LOGOUT"
  | CStartTls => kw "STARTTLS"
  | CAuthenticate m ir =>
    kw "AUTHENTICATE " ++ W (auth_mechanism_str m) ++
    match ir with
    | None => []
    | Some [] => spc ++ kw "="
    | Some d => spc ++ W (b64_encode d)
    end
  | CLogin u p => kw "LOGIN " ++ e_astring u ++ spc ++ e_astring p
  | CSelect m ps => kw "SELECT " ++ e_mailbox m ++ e_opt_list e_select_parameter ps
  | CUnselect => kw "UNSELECT"
  | CExamine m ps => kw "EXAMINE " ++ e_mailbox m ++ e_opt_list e_select_parameter ps
  | CCreate m => kw "CREATE " ++ e_mailbox m
  | CDelete m => kw "DELETE " ++ e_mailbox m
  | CRename a b => kw "RENAME " ++ e_mailbox a ++ spc ++ e_mailbox b
  | CSubscribe m => kw "SUBSCRIBE " ++ e_mailbox m
  | CUnsubscribe m => kw "UNSUBSCRIBE " ++ e_mailbox m
  | CList r p => kw "LIST " ++ e_mailbox r ++ spc ++ e_list_mailbox p
  | CLsub r p => kw "LSUB " ++ e_mailbox r ++ spc ++ e_list_mailbox p
  | CStatus m l => kw "STATUS " ++ e_mailbox m ++ spc ++ paren (joinsp e_status_name l)
  | CAppend m fl date msg =>
    kw "APPEND " ++ e_mailbox m ++ e_opt_list e_flag fl
      ++ e_opt (fun d => spc ++ e_date_time d) date ++ spc ++ e_lit_or_lit8 msg
  | CCheck => kw "CHECK"
  | CClose => kw "CLOSE"
  | CExpunge => kw "EXPUNGE"
  | CExpungeUid s => kw "UID EXPUNGE " ++ e_sequence_set s
  | CSearch cs l uid =>
    e_uid uid ++ kw "SEARCH" ++ e_opt (fun c => kw " CHARSET " ++ e_charset c) cs
      ++ spc ++ joinsp e_search_key l
  | CSort so cs l uid =>
    e_uid uid ++ kw "SORT " ++ paren (joinsp e_sort_criterion so) ++ spc ++ e_charset cs
      ++ spc ++ joinsp e_search_key l
  | CThread a cs l uid =>
    e_uid uid ++ kw "THREAD " ++ e_threading_algorithm a ++ spc ++ e_charset cs
      ++ spc ++ joinsp e_search_key l
  | CFetch s m uid mods =>
    e_uid uid ++ kw "FETCH " ++ e_sequence_set s ++ spc ++ e_macro_or_items m
      ++ e_opt_list e_fetch_modifier mods
  | CStore s k r fl uid mods =>
    e_uid uid ++ kw "STORE " ++ e_sequence_set s ++ spc
      ++ match mods with [] => [] | _ => paren (joinsp e_store_modifier mods) ++ spc end
      ++ match k with STAdd => kw "+" | STRemove => kw "-" | STReplace => [] end
      ++ kw "FLAGS" ++ match r with SRAnswer => [] | SRSilent => kw ".SILENT" end
      ++ spc ++ paren (joinsp e_flag fl)
  | CCopy s m uid => e_uid uid ++ kw "COPY " ++ e_sequence_set s ++ spc ++ e_mailbox m
  | CIdle => kw "IDLE"
  | CEnable l => kw "ENABLE " ++ joinsp e_capability_enable l
  | CCompress a => kw "COMPRESS " ++ e_compression a
  | CGetQuota r => kw "GETQUOTA " ++ e_astring r
  | CGetQuotaRoot m => kw "GETQUOTAROOT " ++ e_mailbox m
  | CSetQuota r l => kw "SETQUOTA " ++ e_astring r ++ spc ++ paren (joinsp e_quota_set l)
  | CMove s m uid => e_uid uid ++ kw "MOVE " ++ e_sequence_set s ++ spc ++ e_mailbox m
  | CId p => kw "ID " ++ e_id_params p
  | CSetMetadata m l => kw "SETMETADATA " ++ e_mailbox m ++ spc ++ paren (joinsp e_entry_value l)
  | CGetMetadata o m l =>
    kw "GETMETADATA" ++ e_opt_list e_get_metadata_option o ++ spc ++ e_mailbox m ++ spc ++
    match l with [x] => e_astring x | _ => paren (joinsp e_astring l) end
  | CNamespace => kw "NAMESPACE"
  end.

Definition e_crlf : list op := W [bCR; bLF].

(* encode.rs:277-284 Command *)
Definition e_command (c : command) : list op :=
  e_bytes (cmd_tag c) ++ spc ++ e_command_body (cmd_body c) ++ e_crlf.

(* encode.rs:756-767 AuthenticateData *)
Definition e_authenticate_data (a : authenticate_data) : list op :=
  match a with
  | ADContinue d => W (b64_encode d) ++ e_crlf
  | ADCancel => kw "*" ++ e_crlf
  end.
(* extensions/idle.rs:57-61 *)
Definition e_idle_done : list op := kw "DONE" ++ e_crlf.

(* encode.rs:1236-1240 Capability *)
Definition e_capability (c : capability) : list op := W (capability_str c).

(* encode.rs:1327-1423 Code, CodeOther *)
Definition e_code (c : code) : list op :=
  match c with
  | CdAlert => kw "ALERT"
  | CdBadCharset [] => kw "BADCHARSET"
  | CdBadCharset l => kw "BADCHARSET " ++ paren (joinsp e_charset l)
  | CdCapability l => kw "CAPABILITY " ++ joinsp e_capability l
  | CdParse => kw "PARSE"
  | CdPermanentFlags l => kw "PERMANENTFLAGS " ++ paren (joinsp e_flag_perm l)
  | CdReadOnly => kw "READ-ONLY"
  | CdReadWrite => kw "READ-WRITE"
  | CdTryCreate => kw "TRYCREATE"
  | CdUidNext n => kw "UIDNEXT " ++ e_num n
  | CdUidValidity n => kw "UIDVALIDITY " ++ e_num n
  | CdUnseen n => kw "UNSEEN " ++ e_num n
  | CdReferral s => kw "REFERRAL " ++ W s
  | CdHighestModSeq n => kw "HIGHESTMODSEQ " ++ e_num n
  | CdNoModSeq => kw "NOMODSEQ"
  | CdModified s => kw "MODIFIED " ++ e_sequence_set s
  | CdClosed => kw "CLOSED"
  | CdCompressionActive => kw "COMPRESSIONACTIVE"
  | CdOverQuota => kw "OVERQUOTA"
  | CdTooBig => kw "TOOBIG"
  | CdMetadata c => kw "METADATA " ++ e_metadata_code c
  | CdUnknownCte => kw "UNKNOWN-CTE"
  | CdAppendUid v u => kw "APPENDUID " ++ e_num v ++ spc ++ e_num u
  | CdCopyUid v s d => kw "COPYUID " ++ e_num v ++ spc ++ e_uid_set s ++ spc ++ e_uid_set d
  | CdUidNotSticky => kw "UIDNOTSTICKY"
  | CdOther b => W b
  end.

(** ["[" code "] "] or nothing, then text: encode.rs:1262-1268, 1299-1304, 2034-2047 *)
Definition e_code_text (c : option code) (text : bytes) : list op :=
  e_opt (fun c => kw "[" ++ e_code c ++ kw "] ") c ++ e_bytes text.

(* encode.rs:1256-1281 Greeting, GreetingKind *)
Definition e_greeting_kind (k : greeting_kind) : list op :=
  match k with GKOk => kw "OK" | GKPreAuth => kw "PREAUTH" | GKBye => kw "BYE" end.
Definition e_greeting (g : greeting) : list op :=
  kw "* " ++ e_greeting_kind (gr_kind g) ++ spc ++ e_code_text (gr_code g) (gr_text g) ++ e_crlf.

(* encode.rs:1283-1325 Status *)
Definition e_status_kind (k : status_kind) : list op :=
  match k with SKOk => kw "OK" | SKNo => kw "NO" | SKBad => kw "BAD" end.
Definition e_status (s : status) : list op :=
  match s with
  | StUntagged b =>
    kw "*" ++ spc ++ e_status_kind (sb_kind b) ++ spc ++ e_code_text (sb_code b) (sb_text b)
  | StTagged t b =>
    e_bytes t ++ spc ++ e_status_kind (sb_kind b) ++ spc ++ e_code_text (sb_code b) (sb_text b)
  | StBye c t => kw "*" ++ spc ++ kw "BYE" ++ spc ++ e_code_text c t
  end ++ e_crlf.

(* encode.rs:1672-1710 StatusDataItem *)
Definition e_status_item (s : status_data_item) : list op :=
  match s with
  | SIMessages n => kw "MESSAGES " ++ e_num n
  | SIRecent n => kw "RECENT " ++ e_num n
  | SIUidNext n => kw "UIDNEXT " ++ e_num n
  | SIUidValidity n => kw "UIDVALIDITY " ++ e_num n
  | SIUnseen n => kw "UNSEEN " ++ e_num n
  | SIDeleted n => kw "DELETED " ++ e_num n
  | SIDeletedStorage n => kw "DELETED-STORAGE " ++ e_num n
  | SIHighestModSeq n => kw "HIGHESTMODSEQ " ++ e_num n
  end.

(* encode.rs:1932-1946 Address *)
Definition e_address (a : address) : list op :=
  paren (e_nstring (ad_name a) ++ spc ++ e_nstring (ad_adl a) ++ spc
    ++ e_nstring (ad_mailbox a) ++ spc ++ e_nstring (ad_host a)).
(* encode.rs:1906-1930 Envelope *)
Definition e_addresses (l : list address) : list op := list1_or_nil [] e_address l.
Definition e_envelope (e : envelope) : list op :=
  paren (e_nstring (env_date e) ++ spc ++ e_nstring (env_subject e) ++ spc
    ++ e_addresses (env_from e) ++ spc ++ e_addresses (env_sender e) ++ spc
    ++ e_addresses (env_reply_to e) ++ spc ++ e_addresses (env_to e) ++ spc
    ++ e_addresses (env_cc e) ++ spc ++ e_addresses (env_bcc e) ++ spc
    ++ e_nstring (env_in_reply_to e) ++ spc ++ e_nstring (env_message_id e)).

(* encode.rs:1892-1904 BasicFields *)
Definition e_basic (b : basic_fields) : list op :=
  e_params (bf_params b) ++ spc ++ e_nstring (bf_id b) ++ spc ++ e_nstring (bf_description b)
    ++ spc ++ e_istring (bf_encoding b) ++ spc ++ e_num (bf_size b).
(* encode.rs:2010-2022 BodyExtension *)
Fixpoint e_body_extension (b : body_extension) : list op :=
  match b with
  | BENString n => e_nstring n
  | BENumber n => e_num n
  | BEList l => paren (join spc e_body_extension l)
  end.
(* encode.rs:1998-2008 Location *)
Definition e_location (l : location) : list op :=
  e_nstring (loc_location l) ++ flat_map (fun b => spc ++ e_body_extension b) (loc_extensions l).
Definition e_tail {A} (e : A -> list op) (t : option A) : list op :=
  e_opt (fun t => spc ++ e t) t.
(* encode.rs:1985-1996 Language *)
Definition e_language (l : language) : list op :=
  list1_or_nil spc e_istring (lang_language l) ++ e_tail e_location (lang_tail l).
(* encode.rs:1963-1983 Disposition *)
Definition e_disposition (d : disposition) : list op :=
  match disp_disposition d with
  | Some (s, p) => paren (e_istring s ++ spc ++ e_params p)
  | None => kw "NIL"
  end ++ e_tail e_language (disp_tail d).
(* encode.rs:1937-1948 SinglePartExtensionData, 1950-1961 MultiPartExtensionData *)
Definition e_single_ext (s : single_ext) : list op :=
  e_nstring (se_md5 s) ++ e_tail e_disposition (se_tail s).
Definition e_multi_ext (m : multi_ext) : list op :=
  e_params (me_params m) ++ e_tail e_disposition (me_tail m).
(* encode.rs:1803-1890 BodyStructure, Body *)
Fixpoint e_body (b : body_structure) : list op :=
  match b with
  | BSSingle basic specific ext =>
    paren (match specific with
           | SFBasic t s => e_istring t ++ spc ++ e_istring s ++ spc ++ e_basic basic
           | SFMessage env bs' n =>
             W ([bDQ] ++ bs "MESSAGE" ++ [bDQ; bSP; bDQ] ++ bs "RFC822" ++ [bDQ; bSP])
               ++ e_basic basic ++ spc ++ e_envelope env ++ spc ++ e_body bs' ++ spc ++ e_num n
           | SFText s n =>
             W ([bDQ] ++ bs "TEXT" ++ [bDQ; bSP]) ++ e_istring s ++ spc ++ e_basic basic
               ++ spc ++ e_num n
           end ++ e_tail e_single_ext ext)
  | BSMulti l s ext =>
    paren (flat_map e_body l ++ spc ++ e_istring s ++ e_tail e_multi_ext ext)
  end.

(* encode.rs:1712-1783 MessageDataItem *)
Definition e_message_data_item (m : message_data_item) : list op :=
  match m with
  | MDBodyExt s o d =>
    kw "BODY[" ++ e_opt e_section s ++ kw "]" ++ e_opt (fun o => kw "<" ++ e_num o ++ kw ">") o
      ++ spc ++ e_nstring d
  | MDBody b => kw "BODY " ++ e_body b
  | MDBodyStructure b => kw "BODYSTRUCTURE " ++ e_body b
  | MDEnvelope e => kw "ENVELOPE " ++ e_envelope e
  | MDFlags l => kw "FLAGS " ++ paren (joinsp e_flag_fetch l)
  | MDInternalDate d => kw "INTERNALDATE " ++ e_date_time d
  | MDRfc822 n => kw "RFC822 " ++ e_nstring n
  | MDRfc822Header n => kw "RFC822.HEADER " ++ e_nstring n
  | MDRfc822Size n => kw "RFC822.SIZE " ++ e_num n
  | MDRfc822Text n => kw "RFC822.TEXT " ++ e_nstring n
  | MDUid n => kw "UID " ++ e_num n
  | MDBinary s v => kw "BINARY[" ++ e_part s ++ kw "] " ++ e_nstring8 v
  | MDBinarySize s n => kw "BINARY.SIZE[" ++ e_part s ++ kw "] " ++ e_num n
  | MDModSeq n => kw "MODSEQ " ++ e_num n
  end.

(** imap-types extensions/thread.rs:29-91 [Display for Thread] via codec
    extensions/thread.rs:25-29. The Rust code walks the tree with an explicit stack of
    iterators; the model is the recursion it implements. *)
Fixpoint e_thread (t : thread) : list op :=
  match t with
  | TMembers prefix answers =>
    paren (joinsp e_num prefix ++
           match answers with Some l => spc ++ flat_map e_thread l | None => [] end)
  | TNested l => paren (flat_map e_thread l)
  end.

(** [if seqs.is_empty() {..} else {" " join}], encode.rs:1484-1534 *)
Definition e_nums (l : list N) : list op :=
  match l with [] => [] | _ => spc ++ joinsp e_num l end.
Definition e_modseq (m : option N) : list op :=
  e_opt (fun n => kw " (MODSEQ " ++ e_num n ++ kw ")") m.

(* encode.rs:1431-1654 Data *)
Definition e_data (d : data) : list op :=
  match d with
  | DCapability l => kw "* CAPABILITY " ++ joinsp e_capability l
  | DList items delim m =>
    kw "* LIST " ++ paren (joinsp e_flag_name items) ++ spc ++ e_delimiter delim ++ spc
      ++ e_mailbox m
  | DLsub items delim m =>
    kw "* LSUB " ++ paren (joinsp e_flag_name items) ++ spc ++ e_delimiter delim ++ spc
      ++ e_mailbox m
  | DStatus m items => kw "* STATUS " ++ e_mailbox m ++ spc ++ paren (joinsp e_status_item items)
  | DSearch l ms => kw "* SEARCH" ++ e_nums l ++ e_modseq ms
  | DSort l ms => kw "* SORT" ++ e_nums l ++ e_modseq ms
  | DThread l => kw "* THREAD" ++ match l with [] => [] | _ => spc ++ flat_map e_thread l end
  | DFlags l => kw "* FLAGS " ++ paren (joinsp e_flag l)
  | DExists n => kw "* " ++ e_num n ++ kw " EXISTS"
  | DRecent n => kw "* " ++ e_num n ++ kw " RECENT"
  | DExpunge n => kw "* " ++ e_num n ++ kw " EXPUNGE"
  | DFetch n items => kw "* " ++ e_num n ++ kw " FETCH " ++ paren (joinsp e_message_data_item items)
  | DEnabled l => kw "* ENABLED" ++ flat_map (fun c => spc ++ e_capability_enable c) l
  | DQuota r l => kw "* QUOTA " ++ e_astring r ++ spc ++ paren (joinsp e_quota_get l)
  | DQuotaRoot m l => kw "* QUOTAROOT " ++ e_mailbox m ++ flat_map (fun r => spc ++ e_astring r) l
  | DId p => kw "* ID " ++ e_id_params p
  | DMetadata m i => kw "* METADATA " ++ e_mailbox m ++ spc ++ e_metadata_response i
  | DVanished earlier s =>
    kw "* VANISHED" ++ (if earlier then kw " (EARLIER)" else []) ++ spc ++ e_sequence_set s
  | DNamespace p o s =>
    kw "* NAMESPACE " ++ e_namespaces p ++ spc ++ e_namespaces o ++ spc ++ e_namespaces s
  end ++ e_crlf.

(* encode.rs:2030-2054 CommandContinuationRequest *)
Definition e_continuation (c : continuation) : list op :=
  match c with
  | CRBasic code text => kw "+ " ++ e_code_text code text ++ e_crlf
  | CRBase64 d => kw "+ " ++ W (b64_encode d) ++ e_crlf
  end.

(* encode.rs:1244-1254 Response *)
Definition e_response (r : response) : list op :=
  match r with
  | RStatus s => e_status s
  | RData d => e_data d
  | RContinue c => e_continuation c
  end.

End Encode.
