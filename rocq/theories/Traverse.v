(** [x_command f g c] is the command [c] with every byte of every string it contains replaced by
    its image under [f] and every literal mode by its image under [g]; the same for the other
    messages. Specification only: two messages differ only in the letter case of their strings
    (or only in literal modes) if the same traversal makes them equal. Numbers, dates, flags of
    the system, keywords, the payload of base64 texts and the structure are kept. *)

From Verif Require Import Bytes Nom Types.

Section Traverse.
Variable f : byte -> byte.
Variable g : lit_mode -> lit_mode.

Definition x_str : bytes -> bytes := map f.
Definition x_literal (l : literal_t) : literal_t := mkLit (x_str (lit_data l)) (g (lit_mode_of l)).
Definition x_literal8 (l : literal8_t) : literal8_t := mkLit8 (x_str (lit8_data l)) (g (lit8_mode_of l)).
Definition x_istring (s : istring) : istring :=
  match s with
  | IQuoted s => IQuoted (x_str s)
  | IQuotedUtf8 s => IQuotedUtf8 (x_str s)
  | ILiteral l => ILiteral (x_literal l)
  end.
Definition x_nstring : nstring -> nstring := option_map x_istring.
Definition x_astring (a : astring) : astring :=
  match a with AAtom a => AAtom (x_str a) | AString s => AString (x_istring s) end.
Definition x_nstring8 (n : nstring8) : nstring8 :=
  match n with N8NString n => N8NString (x_nstring n) | N8Literal8 l => N8Literal8 (x_literal8 l) end.
Definition x_charset (c : charset) : charset :=
  match c with CharsetAtom a => CharsetAtom (x_str a) | CharsetQuoted q => CharsetQuoted (x_str q) end.
Definition x_lit_or_lit8 (l : lit_or_lit8) : lit_or_lit8 :=
  match l with LLiteral l => LLiteral (x_literal l) | LLiteral8 l => LLiteral8 (x_literal8 l) end.
Definition x_mailbox (m : mailbox) : mailbox :=
  match m with MInbox => MInbox | MOther a => MOther (x_astring a) end.
Definition x_list_mailbox (m : list_mailbox) : list_mailbox :=
  match m with LMToken s => LMToken (x_str s) | LMString s => LMString (x_istring s) end.
Definition x_flag (a : flag) : flag :=
  match a with FExtension a => FExtension (x_str a) | FKeyword a => FKeyword (x_str a) | a => a end.
Definition x_flag_fetch (a : flag_fetch) : flag_fetch :=
  match a with FFFlag a => FFFlag (x_flag a) | FFRecent => FFRecent end.
Definition x_flag_perm (a : flag_perm) : flag_perm :=
  match a with FPFlag a => FPFlag (x_flag a) | FPAsterisk => FPAsterisk end.
Definition x_flag_name (a : flag_name_attribute) : flag_name_attribute :=
  match a with FNExtension a => FNExtension (x_str a) | a => a end.
Definition x_mech (m : auth_mechanism) : auth_mechanism :=
  match m with AMOther a => AMOther (x_str a) | m => m end.

Definition x_address (a : address) : address :=
  mkAddress (x_nstring (ad_name a)) (x_nstring (ad_adl a)) (x_nstring (ad_mailbox a)) (x_nstring (ad_host a)).
Definition x_envelope (e : envelope) : envelope :=
  mkEnvelope (x_nstring (env_date e)) (x_nstring (env_subject e))
    (map x_address (env_from e)) (map x_address (env_sender e)) (map x_address (env_reply_to e))
    (map x_address (env_to e)) (map x_address (env_cc e)) (map x_address (env_bcc e))
    (x_nstring (env_in_reply_to e)) (x_nstring (env_message_id e)).
Definition x_param (p : istring * istring) : istring * istring := (x_istring (fst p), x_istring (snd p)).
Fixpoint x_body_extension (b : body_extension) : body_extension :=
  match b with
  | BENString n => BENString (x_nstring n)
  | BENumber n => BENumber n
  | BEList l => BEList (map x_body_extension l)
  end.
Definition x_location (l : location) : location :=
  mkLocation (x_nstring (loc_location l)) (map x_body_extension (loc_extensions l)).
Definition x_language (l : language) : language :=
  mkLanguage (map x_istring (lang_language l)) (option_map x_location (lang_tail l)).
Definition x_disposition (d : disposition) : disposition :=
  mkDisposition (option_map (fun p => (x_istring (fst p), map x_param (snd p))) (disp_disposition d))
    (option_map x_language (disp_tail d)).
Definition x_single_ext (s : single_ext) : single_ext :=
  mkSingleExt (x_nstring (se_md5 s)) (option_map x_disposition (se_tail s)).
Definition x_multi_ext (m : multi_ext) : multi_ext :=
  mkMultiExt (map x_param (me_params m)) (option_map x_disposition (me_tail m)).
Definition x_basic (b : basic_fields) : basic_fields :=
  mkBasic (map x_param (bf_params b)) (x_nstring (bf_id b)) (x_nstring (bf_description b))
    (x_istring (bf_encoding b)) (bf_size b).
Fixpoint x_body (b : body_structure) : body_structure :=
  match b with
  | BSSingle basic specific ext =>
    BSSingle (x_basic basic)
      match specific with
      | SFBasic t s => SFBasic (x_istring t) (x_istring s)
      | SFMessage e b n => SFMessage (x_envelope e) (x_body b) n
      | SFText s n => SFText (x_istring s) n
      end (option_map x_single_ext ext)
  | BSMulti l s ext => BSMulti (map x_body l) (x_istring s) (option_map x_multi_ext ext)
  end.
Definition x_section (s : section) : section :=
  match s with
  | SecHeaderFields p l => SecHeaderFields p (map x_astring l)
  | SecHeaderFieldsNot p l => SecHeaderFieldsNot p (map x_astring l)
  | s => s
  end.
Definition x_item_name (i : item_name) : item_name :=
  match i with INBodyExt s p k => INBodyExt (option_map x_section s) p k | i => i end.
Definition x_macro_or_items (m : macro_or_items) : macro_or_items :=
  match m with MIMacro m => MIMacro m | MIItems l => MIItems (map x_item_name l) end.
Definition x_message_data_item (m : message_data_item) : message_data_item :=
  match m with
  | MDBody b => MDBody (x_body b)
  | MDBodyExt s o d => MDBodyExt (option_map x_section s) o (x_nstring d)
  | MDBodyStructure b => MDBodyStructure (x_body b)
  | MDEnvelope e => MDEnvelope (x_envelope e)
  | MDFlags l => MDFlags (map x_flag_fetch l)
  | MDRfc822 n => MDRfc822 (x_nstring n)
  | MDRfc822Header n => MDRfc822Header (x_nstring n)
  | MDRfc822Text n => MDRfc822Text (x_nstring n)
  | MDBinary s v => MDBinary s (x_nstring8 v)
  | MDInternalDate _ | MDRfc822Size _ | MDUid _ | MDBinarySize _ _ | MDModSeq _ => m
  end.

Definition x_attribute_flag (a : attribute_flag) : attribute_flag :=
  match a with AFExtension a => AFExtension (x_str a) | AFKeyword a => AFKeyword (x_str a) | a => a end.
Definition x_capability_enable (c : capability_enable) : capability_enable :=
  match c with CEOther a => CEOther (x_str a) | c => c end.
Definition x_resource (r : resource) : resource :=
  match r with ROther a => ROther (x_str a) | r => r end.
Definition x_quota_get (q : quota_get) : quota_get :=
  mkQuotaGet (x_resource (qg_resource q)) (qg_usage q) (qg_limit q).
Definition x_quota_set (q : quota_set) : quota_set := mkQuotaSet (x_resource (qs_resource q)) (qs_limit q).
Definition x_sort_algorithm (a : sort_algorithm) : sort_algorithm :=
  match a with SAOther a => SAOther (x_str a) | a => a end.
Definition x_threading_algorithm (a : threading_algorithm) : threading_algorithm :=
  match a with TAOther a => TAOther (x_str a) | a => a end.
Definition x_entry_value (e : entry_value) : entry_value :=
  mkEntryValue (x_astring (ev_entry e)) (x_nstring8 (ev_value e)).
Definition x_metadata_response (r : metadata_response) : metadata_response :=
  match r with
  | MRWithValues l => MRWithValues (map x_entry_value l)
  | MRWithoutValues l => MRWithoutValues (map x_astring l)
  end.
Definition x_namespace_ext (e : namespace_ext) : namespace_ext :=
  mkNsExt (x_istring (ne_key e)) (map x_istring (ne_values e)).
Definition x_namespace (n : namespace) : namespace :=
  mkNamespace (x_istring (ns_prefix n)) (option_map f (ns_delimiter n)) (map x_namespace_ext (ns_extensions n)).
Fixpoint x_search_key (k : search_key) : search_key :=
  match k with
  | KAnd l => KAnd (map x_search_key l)
  | KBcc s => KBcc (x_astring s)
  | KBody s => KBody (x_astring s)
  | KCc s => KCc (x_astring s)
  | KFrom s => KFrom (x_astring s)
  | KHeader k v => KHeader (x_astring k) (x_astring v)
  | KKeyword a => KKeyword (x_str a)
  | KNot k => KNot (x_search_key k)
  | KOr a b => KOr (x_search_key a) (x_search_key b)
  | KSubject s => KSubject (x_astring s)
  | KText s => KText (x_astring s)
  | KTo s => KTo (x_astring s)
  | KUnkeyword a => KUnkeyword (x_str a)
  | KModSequence e n => KModSequence (option_map (fun p => (x_attribute_flag (fst p), snd p)) e) n
  | KSequenceSet _ | KAll | KAnswered | KBefore _ | KDeleted | KDraft | KFlagged | KLarger _ | KNew
  | KOld | KOn _ | KRecent | KSeen | KSentBefore _ | KSentOn _ | KSentSince _ | KSince _ | KSmaller _
  | KUid _ | KUnanswered | KUndeleted | KUndraft | KUnflagged | KUnseen => k
  end.
Definition x_id_param (p : istring * nstring) : istring * nstring := (x_istring (fst p), x_nstring (snd p)).
Definition x_command_body (c : command_body) : command_body :=
  match c with
  | CAuthenticate m ir => CAuthenticate (x_mech m) ir
  | CLogin u p => CLogin (x_astring u) (x_astring p)
  | CSelect m l => CSelect (x_mailbox m) l
  | CExamine m l => CExamine (x_mailbox m) l
  | CCreate m => CCreate (x_mailbox m)
  | CDelete m => CDelete (x_mailbox m)
  | CRename a b => CRename (x_mailbox a) (x_mailbox b)
  | CSubscribe m => CSubscribe (x_mailbox m)
  | CUnsubscribe m => CUnsubscribe (x_mailbox m)
  | CList r p => CList (x_mailbox r) (x_list_mailbox p)
  | CLsub r p => CLsub (x_mailbox r) (x_list_mailbox p)
  | CStatus m l => CStatus (x_mailbox m) l
  | CAppend m l d s => CAppend (x_mailbox m) (map x_flag l) d (x_lit_or_lit8 s)
  | CSearch cs l u => CSearch (option_map x_charset cs) (map x_search_key l) u
  | CSort s cs l u => CSort s (x_charset cs) (map x_search_key l) u
  | CThread a cs l u => CThread (x_threading_algorithm a) (x_charset cs) (map x_search_key l) u
  | CFetch s i u m => CFetch s (x_macro_or_items i) u m
  | CStore s k r l u m => CStore s k r (map x_flag l) u m
  | CCopy s m u => CCopy s (x_mailbox m) u
  | CEnable l => CEnable (map x_capability_enable l)
  | CGetQuota r => CGetQuota (x_astring r)
  | CGetQuotaRoot m => CGetQuotaRoot (x_mailbox m)
  | CSetQuota r l => CSetQuota (x_astring r) (map x_quota_set l)
  | CMove s m u => CMove s (x_mailbox m) u
  | CId p => CId (option_map (map x_id_param) p)
  | CSetMetadata m l => CSetMetadata (x_mailbox m) (map x_entry_value l)
  | CGetMetadata o m l => CGetMetadata o (x_mailbox m) (map x_astring l)
  | CCapability | CNoop | CLogout | CStartTls | CUnselect | CCheck | CClose | CExpunge | CExpungeUid _
  | CIdle | CCompress _ | CNamespace => c
  end.
Definition x_command (c : command) : command := mkCommand (x_str (cmd_tag c)) (x_command_body (cmd_body c)).

Definition x_capability (c : capability) : capability :=
  match c with
  | CapAuth m => CapAuth (x_mech m)
  | CapQuotaRes r => CapQuotaRes (x_resource r)
  | CapSort a => CapSort (option_map x_sort_algorithm a)
  | CapThread a => CapThread (x_threading_algorithm a)
  | CapOther a => CapOther (x_str a)
  | c => c
  end.
Definition x_code (c : code) : code :=
  match c with
  | CdBadCharset l => CdBadCharset (map x_charset l)
  | CdCapability l => CdCapability (map x_capability l)
  | CdPermanentFlags l => CdPermanentFlags (map x_flag_perm l)
  | CdReferral s => CdReferral (x_str s)
  | CdOther s => CdOther (x_str s)
  | c => c
  end.
Definition x_greeting (a : greeting) : greeting :=
  mkGreeting (gr_kind a) (option_map x_code (gr_code a)) (x_str (gr_text a)).
Definition x_status_body (b : status_body) : status_body :=
  mkStatusBody (sb_kind b) (option_map x_code (sb_code b)) (x_str (sb_text b)).
Definition x_status (s : status) : status :=
  match s with
  | StUntagged b => StUntagged (x_status_body b)
  | StTagged t b => StTagged (x_str t) (x_status_body b)
  | StBye c t => StBye (option_map x_code c) (x_str t)
  end.
Definition x_data (d : data) : data :=
  match d with
  | DCapability l => DCapability (map x_capability l)
  | DList l d m => DList (map x_flag_name l) (option_map f d) (x_mailbox m)
  | DLsub l d m => DLsub (map x_flag_name l) (option_map f d) (x_mailbox m)
  | DStatus m l => DStatus (x_mailbox m) l
  | DFlags l => DFlags (map x_flag l)
  | DFetch n l => DFetch n (map x_message_data_item l)
  | DEnabled l => DEnabled (map x_capability_enable l)
  | DQuota r l => DQuota (x_astring r) (map x_quota_get l)
  | DQuotaRoot m l => DQuotaRoot (x_mailbox m) (map x_astring l)
  | DId p => DId (option_map (map x_id_param) p)
  | DMetadata m r => DMetadata (x_mailbox m) (x_metadata_response r)
  | DNamespace a b c => DNamespace (map x_namespace a) (map x_namespace b) (map x_namespace c)
  | DSearch _ _ | DSort _ _ | DThread _ | DExists _ | DRecent _ | DExpunge _ | DVanished _ _ => d
  end.
Definition x_continuation (c : continuation) : continuation :=
  match c with CRBasic c t => CRBasic (option_map x_code c) (x_str t) | CRBase64 d => CRBase64 d end.
Definition x_response (r : response) : response :=
  match r with
  | RContinue c => RContinue (x_continuation c)
  | RData d => RData (x_data d)
  | RStatus s => RStatus (x_status s)
  end.
End Traverse.
