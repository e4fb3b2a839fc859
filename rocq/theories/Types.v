(** Data types of imap-types.

    Models the type definitions of /repo/imap-types/src. Conventions:
    - borrowed/owned variants ([Cow]) are the same value;
    - numbers are [N]; their Rust ranges ([u32], [NonZeroU32], [u64], [NonZeroU64]) and
      the invariants of newtypes (non-empty vectors, valid atoms, ...) are the validity
      predicates of [Valid.v];
    - items behind [#[cfg(feature)]] are always present; the predicates of [Valid.v] require
      the feature. Struct fields behind a feature are always present and must be empty when
      the feature is off;
    - [Secret<T>] is [T]. *)

From Verif Require Import Bytes Nom.

(** ** core.rs *)

(** core.rs:111 [Atom], :260 [AtomExt], [Tag], [Text], [Quoted]: their bytes. *)
Definition atom_t := bytes.

(** core.rs [Literal] {data, mode} *)
Record literal_t := mkLit { lit_data : bytes; lit_mode_of : lit_mode }.

(** extensions/binary.rs:30 [Literal8] *)
Record literal8_t := mkLit8 { lit8_data : bytes; lit8_mode_of : lit_mode }.

(** core.rs [IString]; [QuotedUtf8] is behind ext_utf8 *)
Inductive istring :=
| IQuoted (s : bytes)
| IQuotedUtf8 (s : bytes)
| ILiteral (l : literal_t).

(** core.rs [NString(Option<IString>)] *)
Definition nstring := option istring.

(** core.rs [AString] *)
Inductive astring :=
| AAtom (a : bytes)
| AString (s : istring).

(** core.rs [NString8] *)
Inductive nstring8 :=
| N8NString (n : nstring)
| N8Literal8 (l : literal8_t).

(** core.rs [Charset] *)
Inductive charset :=
| CharsetAtom (a : bytes)
| CharsetQuoted (q : bytes).

(** extensions/binary.rs:21 *)
Inductive lit_or_lit8 :=
| LLiteral (l : literal_t)
| LLiteral8 (l : literal8_t).

(** ** sequence.rs *)
Inductive seq_or_uid := SValue (n : N) | SAsterisk.
Inductive sequence :=
| SSingle (s : seq_or_uid)
| SRange (a b : seq_or_uid).
Definition sequence_set := list sequence.

(** ** mailbox.rs *)
Inductive mailbox := MInbox | MOther (a : astring).
Inductive list_mailbox := LMToken (s : bytes) | LMString (s : istring).

(** ** flag.rs:28-220 *)
Inductive flag :=
| FAnswered | FDeleted | FDraft | FFlagged | FSeen
| FExtension (a : atom_t)
| FKeyword (a : atom_t).
Inductive flag_fetch := FFFlag (f : flag) | FFRecent.
Inductive flag_perm := FPFlag (f : flag) | FPAsterisk.
Inductive flag_name_attribute :=
| FNNoinferiors | FNNoselect | FNMarked | FNUnmarked
| FNExtension (a : atom_t).
Inductive store_type := STReplace | STAdd | STRemove.
Inductive store_response := SRAnswer | SRSilent.

(** ** status.rs:14-80 *)
Inductive status_data_item_name :=
| SNMessages | SNRecent | SNUidNext | SNUidValidity | SNUnseen | SNDeleted
| SNDeletedStorage | SNHighestModSeq.
Inductive status_data_item :=
| SIMessages (n : N) | SIRecent (n : N) | SIUidNext (n : N) | SIUidValidity (n : N)
| SIUnseen (n : N) | SIDeleted (n : N) | SIDeletedStorage (n : N)
| SIHighestModSeq (n : N).

(** ** datetime.rs
    [chrono::NaiveDate] and [chrono::DateTime<FixedOffset>] by their local calendar
    fields and the offset (seconds east of UTC). *)
Record naive_date := mkDate { d_year : N; d_month : N; d_day : N }.
Record date_time := mkDateTime {
  dt_date : naive_date; dt_hour : N; dt_min : N; dt_sec : N; dt_offset : Z }.

(** ** auth.rs:26-141, 211-219 *)
Inductive auth_mechanism :=
| AMPlain | AMLogin | AMOAuthBearer | AMXOAuth2
| AMScramSha1 | AMScramSha1Plus | AMScramSha256 | AMScramSha256Plus
| AMScramSha3_512 | AMScramSha3_512Plus
| AMOther (a : atom_t).
Inductive authenticate_data := ADContinue (d : bytes) | ADCancel.

(** ** envelope.rs:14-52 *)
Record address := mkAddress {
  ad_name : nstring; ad_adl : nstring; ad_mailbox : nstring; ad_host : nstring }.
Record envelope := mkEnvelope {
  env_date : nstring; env_subject : nstring;
  env_from : list address; env_sender : list address; env_reply_to : list address;
  env_to : list address; env_cc : list address; env_bcc : list address;
  env_in_reply_to : nstring; env_message_id : nstring }.

(** ** body.rs:18-340 *)
Inductive body_extension :=
| BENString (n : nstring)
| BENumber (n : N)
| BEList (l : list body_extension).
Record location := mkLocation { loc_location : nstring; loc_extensions : list body_extension }.
Record language := mkLanguage { lang_language : list istring; lang_tail : option location }.
Record disposition := mkDisposition {
  disp_disposition : option (istring * list (istring * istring));
  disp_tail : option language }.
Record single_ext := mkSingleExt { se_md5 : nstring; se_tail : option disposition }.
Record multi_ext := mkMultiExt {
  me_params : list (istring * istring); me_tail : option disposition }.
Record basic_fields := mkBasic {
  bf_params : list (istring * istring); bf_id : nstring; bf_description : nstring;
  bf_encoding : istring; bf_size : N }.
(** [Body] is inlined into [BSSingle]. *)
Inductive body_structure :=
| BSSingle (basic : basic_fields) (specific : specific_fields) (ext : option single_ext)
| BSMulti (bodies : list body_structure) (subtype : istring) (ext : option multi_ext)
with specific_fields :=
| SFBasic (type_ subtype : istring)
| SFMessage (env : envelope) (bs : body_structure) (lines : N)
| SFText (subtype : istring) (lines : N).

(** ** fetch.rs *)
Inductive macro := MacroFast | MacroAll | MacroFull.
Definition part := list N.
Inductive section :=
| SecPart (p : part)
| SecHeader (p : option part)
| SecHeaderFields (p : option part) (fields : list astring)
| SecHeaderFieldsNot (p : option part) (fields : list astring)
| SecText (p : option part)
| SecMime (p : part).
Inductive item_name :=
| INBody
| INBodyExt (section : option section) (partial : option (N * N)) (peek : bool)
| INBodyStructure | INEnvelope | INFlags | INInternalDate
| INRfc822 | INRfc822Header | INRfc822Size | INRfc822Text | INUid
| INBinary (section : list N) (partial : option (N * N)) (peek : bool)
| INBinarySize (section : list N)
| INModSeq.
Inductive macro_or_items :=
| MIMacro (m : macro)
| MIItems (l : list item_name).
Inductive message_data_item :=
| MDBody (b : body_structure)
| MDBodyExt (section : option section) (origin : option N) (data : nstring)
| MDBodyStructure (b : body_structure)
| MDEnvelope (e : envelope)
| MDFlags (l : list flag_fetch)
| MDInternalDate (d : date_time)
| MDRfc822 (n : nstring) | MDRfc822Header (n : nstring)
| MDRfc822Size (n : N) | MDRfc822Text (n : nstring)
| MDUid (n : N)
| MDBinary (section : list N) (value : nstring8)
| MDBinarySize (section : list N) (size : N)
| MDModSeq (n : N).

(** ** extensions *)

(** condstore_qresync.rs:14-78 *)
Inductive attribute_flag :=
| AFAnswered | AFDeleted | AFDraft | AFFlagged | AFSeen
| AFExtension (a : atom_t)
| AFKeyword (a : atom_t).
Inductive entry_type_req := ETPrivate | ETShared | ETAll.

(** utf8.rs:17 *)
Inductive utf8_kind := Utf8Accept | Utf8Only.

(** enable.rs:41 *)
Inductive capability_enable :=
| CECondStore | CEMetadata | CEMetadataServer | CEUtf8 (k : utf8_kind)
| CEOther (a : atom_t).

(** compress.rs:41 *)
Inductive compression_algorithm := Deflate.

(** quota.rs:128-256 *)
Inductive resource :=
| RStorage | RMessage | RMailbox | RAnnotationStorage | ROther (a : atom_t).
Record quota_get := mkQuotaGet { qg_resource : resource; qg_usage : N; qg_limit : N }.
Record quota_set := mkQuotaSet { qs_resource : resource; qs_limit : N }.

(** sort.rs:16-77 *)
Inductive sort_algorithm := SADisplay | SAOther (a : atom_t).
Inductive sort_key :=
| SKArrival | SKCc | SKDate | SKFrom | SKSize | SKSubject | SKTo
| SKDisplayFrom | SKDisplayTo.
Record sort_criterion := mkSort { so_reverse : bool; so_key : sort_key }.

(** thread.rs:19-27, 142-146 *)
Inductive thread :=
| TMembers (prefix : list N) (answers : option (list thread))
| TNested (answers : list thread).
Inductive threading_algorithm := TAOrderedSubject | TAReferences | TAOther (a : atom_t).

(** uidplus.rs:14-23 *)
Inductive uid_element := UESingle (n : N) | UERange (a b : N).
Definition uid_set := list uid_element.

(** metadata.rs:15-95; [Entry] is an [AString] *)
Record entry_value := mkEntryValue { ev_entry : astring; ev_value : nstring8 }.
Inductive depth := DepthNull | DepthOne | DepthInfinity.
Inductive get_metadata_option := GMMaxSize (n : N) | GMDepth (d : depth).
Inductive metadata_code :=
| MCLongEntries (n : N) | MCMaxSize (n : N) | MCTooMany | MCNoPrivate.
Inductive metadata_response :=
| MRWithValues (l : list entry_value)
| MRWithoutValues (l : list astring).

(** namespace.rs:63-96 *)
Record namespace_ext := mkNsExt { ne_key : istring; ne_values : list istring }.
Record namespace := mkNamespace {
  ns_prefix : istring; ns_delimiter : option byte; ns_extensions : list namespace_ext }.

(** ** search.rs:19-171 *)
Inductive search_key :=
| KAnd (l : list search_key)
| KSequenceSet (s : sequence_set)
| KAll | KAnswered
| KBcc (s : astring) | KBefore (d : naive_date) | KBody (s : astring) | KCc (s : astring)
| KDeleted | KDraft | KFlagged
| KFrom (s : astring) | KHeader (k v : astring) | KKeyword (a : atom_t) | KLarger (n : N)
| KNew | KNot (k : search_key) | KOld | KOn (d : naive_date)
| KOr (a b : search_key)
| KRecent | KSeen
| KSentBefore (d : naive_date) | KSentOn (d : naive_date) | KSentSince (d : naive_date)
| KSince (d : naive_date) | KSmaller (n : N) | KSubject (s : astring) | KText (s : astring)
| KTo (s : astring) | KUid (s : sequence_set)
| KUnanswered | KUndeleted | KUndraft | KUnflagged
| KUnkeyword (a : atom_t) | KUnseen
| KModSequence (entry : option (attribute_flag * entry_type_req)) (modseq : N).

(** ** command.rs *)
Inductive select_parameter :=
| SPCondStore
| SPQResync (uid_validity mod_sequence_value : N) (known_uids : option sequence_set)
    (seq_match_data : option (sequence_set * sequence_set)).
Inductive fetch_modifier := FMChangedSince (n : N) | FMVanished.
Inductive store_modifier := SMUnchangedSince (n : N).

Inductive command_body :=
| CCapability | CNoop | CLogout | CStartTls
| CAuthenticate (mech : auth_mechanism) (ir : option bytes)
| CLogin (username password : astring)
| CSelect (m : mailbox) (params : list select_parameter)
| CUnselect
| CExamine (m : mailbox) (params : list select_parameter)
| CCreate (m : mailbox) | CDelete (m : mailbox)
| CRename (from to : mailbox)
| CSubscribe (m : mailbox) | CUnsubscribe (m : mailbox)
| CList (reference : mailbox) (pat : list_mailbox)
| CLsub (reference : mailbox) (pat : list_mailbox)
| CStatus (m : mailbox) (items : list status_data_item_name)
| CAppend (m : mailbox) (flags : list flag) (date : option date_time) (msg : lit_or_lit8)
| CCheck | CClose | CExpunge
| CExpungeUid (s : sequence_set)
| CSearch (cs : option charset) (criteria : list search_key) (uid : bool)
| CSort (sort : list sort_criterion) (cs : charset) (criteria : list search_key) (uid : bool)
| CThread (alg : threading_algorithm) (cs : charset) (criteria : list search_key) (uid : bool)
| CFetch (s : sequence_set) (items : macro_or_items) (uid : bool) (mods : list fetch_modifier)
| CStore (s : sequence_set) (kind : store_type) (resp : store_response) (flags : list flag)
    (uid : bool) (mods : list store_modifier)
| CCopy (s : sequence_set) (m : mailbox) (uid : bool)
| CIdle
| CEnable (caps : list capability_enable)
| CCompress (a : compression_algorithm)
| CGetQuota (root : astring)
| CGetQuotaRoot (m : mailbox)
| CSetQuota (root : astring) (quotas : list quota_set)
| CMove (s : sequence_set) (m : mailbox) (uid : bool)
| CId (params : option (list (istring * nstring)))
| CSetMetadata (m : mailbox) (entries : list entry_value)
| CGetMetadata (options : list get_metadata_option) (m : mailbox) (entries : list astring)
| CNamespace.
Record command := mkCommand { cmd_tag : bytes; cmd_body : command_body }.

(** ** response.rs *)
Inductive capability :=
| CapImap4Rev1 | CapAuth (m : auth_mechanism) | CapLoginDisabled | CapStartTls | CapIdle
| CapMailboxReferrals | CapLoginReferrals | CapSaslIr | CapEnable
| CapCompress (a : compression_algorithm)
| CapQuota | CapQuotaRes (r : resource) | CapQuotaSet
| CapLiteralPlus | CapLiteralMinus | CapMove | CapId | CapUnselect
| CapSort (a : option sort_algorithm) | CapThread (a : threading_algorithm)
| CapMetadata | CapMetadataServer | CapBinary | CapUidPlus | CapCondStore | CapQResync
| CapNamespace | CapUtf8 (k : utf8_kind)
| CapOther (a : atom_t).

Inductive code :=
| CdAlert
| CdBadCharset (allowed : list charset)
| CdCapability (caps : list capability)
| CdParse
| CdPermanentFlags (flags : list flag_perm)
| CdReadOnly | CdReadWrite | CdTryCreate
| CdUidNext (n : N) | CdUidValidity (n : N) | CdUnseen (n : N)
| CdReferral (s : bytes)
| CdCompressionActive | CdOverQuota | CdTooBig
| CdMetadata (c : metadata_code)
| CdUnknownCte
| CdAppendUid (uid_validity uid : N)
| CdCopyUid (uid_validity : N) (source destination : uid_set)
| CdUidNotSticky
| CdHighestModSeq (n : N) | CdModified (s : sequence_set) | CdNoModSeq | CdClosed
| CdOther (b : bytes).

Inductive greeting_kind := GKOk | GKPreAuth | GKBye.
Record greeting := mkGreeting {
  gr_kind : greeting_kind; gr_code : option code; gr_text : bytes }.

Inductive status_kind := SKOk | SKNo | SKBad.
Record status_body := mkStatusBody {
  sb_kind : status_kind; sb_code : option code; sb_text : bytes }.
Inductive status :=
| StUntagged (b : status_body)
| StTagged (tag : bytes) (b : status_body)
| StBye (code : option code) (text : bytes).

Inductive data :=
| DCapability (l : list capability)
| DList (items : list flag_name_attribute) (delim : option byte) (m : mailbox)
| DLsub (items : list flag_name_attribute) (delim : option byte) (m : mailbox)
| DStatus (m : mailbox) (items : list status_data_item)
| DSearch (l : list N) (modseq : option N)
| DSort (l : list N) (modseq : option N)
| DThread (l : list thread)
| DFlags (l : list flag)
| DExists (n : N) | DRecent (n : N) | DExpunge (n : N)
| DFetch (seq : N) (items : list message_data_item)
| DEnabled (caps : list capability_enable)
| DQuota (root : astring) (quotas : list quota_get)
| DQuotaRoot (m : mailbox) (roots : list astring)
| DId (params : option (list (istring * nstring)))
| DMetadata (m : mailbox) (items : metadata_response)
| DVanished (earlier : bool) (known_uids : sequence_set)
| DNamespace (personal other shared : list namespace).

Inductive continuation :=
| CRBasic (code : option code) (text : bytes)
| CRBase64 (d : bytes).

Inductive response :=
| RContinue (c : continuation)
| RData (d : data)
| RStatus (s : status).
