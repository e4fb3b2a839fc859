(** How much a message holds, for C53.

    The size of a value: one for every byte of every string in it, one for every element of every
    list in it, and one for every value in a box. Numbers, dates and words have a fixed size and
    are not counted. It is what the value needs on the heap, up to a constant factor. Written
    without the decoder and the encoder: it uses the data types only. *)

From Verif Require Import Bytes Features Nom Types.
Open Scope nat_scope.

Definition list_size {A} (f : A -> nat) (l : list A) : nat :=
  fold_right (fun a n => 1 + f a + n) 0 l.
Definition opt_size {A} (f : A -> nat) (o : option A) : nat :=
  match o with Some a => f a | None => 0 end.
Definition pair_size {A B} (f : A -> nat) (g : B -> nat) (p : A * B) : nat := f (fst p) + g (snd p).
(** Values of a fixed size *)
Definition fixed {A} (_ : A) : nat := 0.
Definition text_size (s : bytes) : nat := length s.

(** ** Strings and names *)
Definition istring_size (s : istring) : nat :=
  match s with
  | IQuoted s | IQuotedUtf8 s => length s
  | ILiteral l => length (lit_data l)
  end.
Definition nstring_size : nstring -> nat := opt_size istring_size.
Definition astring_size (a : astring) : nat :=
  match a with AAtom a => length a | AString s => istring_size s end.
Definition nstring8_size (n : nstring8) : nat :=
  match n with N8NString n => nstring_size n | N8Literal8 l => length (lit8_data l) end.
Definition charset_size (c : charset) : nat :=
  match c with CharsetAtom a => length a | CharsetQuoted q => length q end.
Definition message_size (m : lit_or_lit8) : nat :=
  match m with LLiteral l => length (lit_data l) | LLiteral8 l => length (lit8_data l) end.
Definition mailbox_size (m : mailbox) : nat :=
  match m with MInbox => 0 | MOther a => astring_size a end.
Definition list_mailbox_size (m : list_mailbox) : nat :=
  match m with LMToken s => length s | LMString s => istring_size s end.
Definition flag_size (f : flag) : nat :=
  match f with FExtension a | FKeyword a => length a | _ => 0 end.
Definition flag_fetch_size (f : flag_fetch) : nat :=
  match f with FFFlag f => flag_size f | FFRecent => 0 end.
Definition flag_perm_size (f : flag_perm) : nat :=
  match f with FPFlag f => flag_size f | FPAsterisk => 0 end.
Definition flag_name_size (f : flag_name_attribute) : nat :=
  match f with FNExtension a => length a | _ => 0 end.
Definition auth_size (m : auth_mechanism) : nat := match m with AMOther a => length a | _ => 0 end.
Definition resource_size (r : resource) : nat := match r with ROther a => length a | _ => 0 end.
Definition sort_algorithm_size (s : sort_algorithm) : nat :=
  match s with SAOther a => length a | _ => 0 end.
Definition thread_algorithm_size (s : threading_algorithm) : nat :=
  match s with TAOther a => length a | _ => 0 end.
Definition enable_size (c : capability_enable) : nat :=
  match c with CEOther a => length a | _ => 0 end.
Definition attribute_flag_size (f : attribute_flag) : nat :=
  match f with AFExtension a | AFKeyword a => length a | _ => 0 end.
Definition capability_size (c : capability) : nat :=
  match c with
  | CapAuth m => auth_size m
  | CapQuotaRes r => resource_size r
  | CapSort a => opt_size sort_algorithm_size a
  | CapThread a => thread_algorithm_size a
  | CapOther a => length a
  | _ => 0
  end.

(** ** Parts of commands *)
Definition sequence_set_size : sequence_set -> nat := list_size fixed.
Fixpoint search_key_size (k : search_key) : nat :=
  match k with
  | KAnd l => list_size search_key_size l
  | KSequenceSet s | KUid s => sequence_set_size s
  | KBcc s | KBody s | KCc s | KFrom s | KSubject s | KText s | KTo s => astring_size s
  | KHeader k v => astring_size k + astring_size v
  | KKeyword a | KUnkeyword a => length a
  | KNot k => 1 + search_key_size k
  | KOr a b => (1 + search_key_size a) + (1 + search_key_size b)
  | KModSequence e _ => opt_size (pair_size attribute_flag_size fixed) e
  | KAll | KAnswered | KBefore _ | KDeleted | KDraft | KFlagged | KLarger _ | KNew | KOld | KOn _
  | KRecent | KSeen | KSentBefore _ | KSentOn _ | KSentSince _ | KSince _ | KSmaller _
  | KUnanswered | KUndeleted | KUndraft | KUnflagged | KUnseen => 0
  end.
Definition part_size : part -> nat := list_size fixed.
Definition section_size (s : section) : nat :=
  match s with
  | SecPart p | SecMime p => part_size p
  | SecHeader p | SecText p => opt_size part_size p
  | SecHeaderFields p l | SecHeaderFieldsNot p l => opt_size part_size p + list_size astring_size l
  end.
Definition item_name_size (i : item_name) : nat :=
  match i with
  | INBodyExt s _ _ => opt_size section_size s
  | INBinary s _ _ | INBinarySize s => part_size s
  | _ => 0
  end.
Definition macro_or_items_size (m : macro_or_items) : nat :=
  match m with MIMacro _ => 0 | MIItems l => list_size item_name_size l end.
Definition select_parameter_size (p : select_parameter) : nat :=
  match p with
  | SPCondStore => 0
  | SPQResync _ _ known data =>
      opt_size sequence_set_size known
      + opt_size (pair_size sequence_set_size sequence_set_size) data
  end.
Definition entry_value_size (e : entry_value) : nat :=
  astring_size (ev_entry e) + nstring8_size (ev_value e).
Definition id_size : option (list (istring * nstring)) -> nat :=
  opt_size (list_size (pair_size istring_size nstring_size)).
Definition command_body_size (c : command_body) : nat :=
  match c with
  | CCapability | CNoop | CLogout | CStartTls | CUnselect | CCheck | CClose | CExpunge | CIdle
  | CNamespace | CCompress _ => 0
  | CAuthenticate m ir => auth_size m + opt_size text_size ir
  | CLogin u p => astring_size u + astring_size p
  | CSelect m ps | CExamine m ps => mailbox_size m + list_size select_parameter_size ps
  | CCreate m | CDelete m | CSubscribe m | CUnsubscribe m | CGetQuotaRoot m => mailbox_size m
  | CRename a b => mailbox_size a + mailbox_size b
  | CList m l | CLsub m l => mailbox_size m + list_mailbox_size l
  | CStatus m l => mailbox_size m + list_size fixed l
  | CAppend m fl _ msg => mailbox_size m + list_size flag_size fl + message_size msg
  | CExpungeUid s => sequence_set_size s
  | CSearch cs l _ => opt_size charset_size cs + list_size search_key_size l
  | CSort so cs l _ => list_size fixed so + charset_size cs + list_size search_key_size l
  | CThread a cs l _ => thread_algorithm_size a + charset_size cs + list_size search_key_size l
  | CFetch s i _ ms => sequence_set_size s + macro_or_items_size i + list_size fixed ms
  | CStore s _ _ fl _ ms => sequence_set_size s + list_size flag_size fl + list_size fixed ms
  | CCopy s m _ | CMove s m _ => sequence_set_size s + mailbox_size m
  | CEnable l => list_size enable_size l
  | CGetQuota r => astring_size r
  | CSetQuota r l => astring_size r + list_size (fun q => resource_size (qs_resource q)) l
  | CId p => id_size p
  | CSetMetadata m l => mailbox_size m + list_size entry_value_size l
  | CGetMetadata o m l => list_size fixed o + mailbox_size m + list_size astring_size l
  end.
Definition command_size (c : command) : nat := length (cmd_tag c) + command_body_size (cmd_body c).
Definition authenticate_data_size (a : authenticate_data) : nat :=
  match a with ADContinue p => length p | ADCancel => 0 end.

(** ** Parts of responses *)
Definition address_size (a : address) : nat :=
  nstring_size (ad_name a) + nstring_size (ad_adl a) + nstring_size (ad_mailbox a)
  + nstring_size (ad_host a).
Definition envelope_size (e : envelope) : nat :=
  nstring_size (env_date e) + nstring_size (env_subject e)
  + list_size address_size (env_from e) + list_size address_size (env_sender e)
  + list_size address_size (env_reply_to e) + list_size address_size (env_to e)
  + list_size address_size (env_cc e) + list_size address_size (env_bcc e)
  + nstring_size (env_in_reply_to e) + nstring_size (env_message_id e).
Definition params_size : list (istring * istring) -> nat :=
  list_size (pair_size istring_size istring_size).
Fixpoint body_extension_size (b : body_extension) : nat :=
  match b with
  | BENString n => nstring_size n
  | BENumber _ => 0
  | BEList l => list_size body_extension_size l
  end.
Definition location_size (l : location) : nat :=
  nstring_size (loc_location l) + list_size body_extension_size (loc_extensions l).
Definition language_size (l : language) : nat :=
  list_size istring_size (lang_language l) + opt_size location_size (lang_tail l).
Definition disposition_size (d : disposition) : nat :=
  opt_size (pair_size istring_size params_size) (disp_disposition d)
  + opt_size language_size (disp_tail d).
Definition single_ext_size (e : single_ext) : nat :=
  nstring_size (se_md5 e) + opt_size disposition_size (se_tail e).
Definition multi_ext_size (e : multi_ext) : nat :=
  params_size (me_params e) + opt_size disposition_size (me_tail e).
Definition basic_size (b : basic_fields) : nat :=
  params_size (bf_params b) + nstring_size (bf_id b) + nstring_size (bf_description b)
  + istring_size (bf_encoding b).
(** The envelope and the body of a message are in boxes. *)
Fixpoint body_size (b : body_structure) : nat :=
  match b with
  | BSSingle b s x => basic_size b + specific_size s + opt_size single_ext_size x
  | BSMulti l s x => list_size body_size l + istring_size s + opt_size multi_ext_size x
  end
with specific_size (s : specific_fields) : nat :=
  match s with
  | SFBasic t s => istring_size t + istring_size s
  | SFMessage e b _ => (1 + envelope_size e) + (1 + body_size b)
  | SFText s _ => istring_size s
  end.
Definition message_data_item_size (i : message_data_item) : nat :=
  match i with
  | MDBody b | MDBodyStructure b => body_size b
  | MDBodyExt s _ d => opt_size section_size s + nstring_size d
  | MDEnvelope e => envelope_size e
  | MDFlags l => list_size flag_fetch_size l
  | MDRfc822 n | MDRfc822Header n | MDRfc822Text n => nstring_size n
  | MDBinary s v => part_size s + nstring8_size v
  | MDBinarySize s _ => part_size s
  | MDInternalDate _ | MDRfc822Size _ | MDUid _ | MDModSeq _ => 0
  end.
Fixpoint thread_size (t : thread) : nat :=
  match t with
  | TMembers p None => list_size fixed p
  | TMembers p (Some l) => list_size fixed p + list_size thread_size l
  | TNested l => list_size thread_size l
  end.
Definition namespace_size (n : namespace) : nat :=
  istring_size (ns_prefix n)
  + list_size (fun e => istring_size (ne_key e) + list_size istring_size (ne_values e))
      (ns_extensions n).
Definition data_size (d : data) : nat :=
  match d with
  | DCapability l => list_size capability_size l
  | DList l _ m | DLsub l _ m => list_size flag_name_size l + mailbox_size m
  | DStatus m l => mailbox_size m + list_size fixed l
  | DSearch l _ | DSort l _ => list_size fixed l
  | DThread l => list_size thread_size l
  | DFlags l => list_size flag_size l
  | DExists _ | DRecent _ | DExpunge _ => 0
  | DFetch _ l => list_size message_data_item_size l
  | DEnabled l => list_size enable_size l
  | DQuota r l => astring_size r + list_size (fun q => resource_size (qg_resource q)) l
  | DQuotaRoot m l => mailbox_size m + list_size astring_size l
  | DId p => id_size p
  | DMetadata m (MRWithValues l) => mailbox_size m + list_size entry_value_size l
  | DMetadata m (MRWithoutValues l) => mailbox_size m + list_size astring_size l
  | DVanished _ s => sequence_set_size s
  | DNamespace a b c =>
      list_size namespace_size a + list_size namespace_size b + list_size namespace_size c
  end.
Definition code_size (c : code) : nat :=
  match c with
  | CdBadCharset l => list_size charset_size l
  | CdCapability l => list_size capability_size l
  | CdPermanentFlags l => list_size flag_perm_size l
  | CdReferral s => length s
  | CdCopyUid _ s d => list_size fixed s + list_size fixed d
  | CdModified s => sequence_set_size s
  | CdOther b => length b
  | CdAlert | CdParse | CdReadOnly | CdReadWrite | CdTryCreate | CdUidNext _ | CdUidValidity _
  | CdUnseen _ | CdCompressionActive | CdOverQuota | CdTooBig | CdMetadata _ | CdUnknownCte
  | CdAppendUid _ _ | CdUidNotSticky | CdHighestModSeq _ | CdNoModSeq | CdClosed => 0
  end.
Definition line_size (c : option code) (t : bytes) : nat := opt_size code_size c + length t.
Definition greeting_size (g : greeting) : nat := line_size (gr_code g) (gr_text g).
Definition status_body_size (b : status_body) : nat := line_size (sb_code b) (sb_text b).
Definition response_size (r : response) : nat :=
  match r with
  | RContinue (CRBasic c t) => line_size c t
  | RContinue (CRBase64 d) => length d
  | RData d => data_size d
  | RStatus (StUntagged b) => status_body_size b
  | RStatus (StTagged tag b) => length tag + status_body_size b
  | RStatus (StBye c t) => line_size c t
  end.
