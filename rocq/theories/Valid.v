(** When is a value of the message types one that safe Rust code can build?

    The public constructors of imap-types enforce invariants (a [Tag] is non-empty and only
    contains certain characters, a [Vec1] has an element, a [NonZeroU32] is not zero, ...).
    The predicates below collect them, type by type, on top of the validators of Conv.v.

    They take a [level]. At level [LType] they are those invariants and nothing else. At level
    [LExact] they additionally exclude the values that imap-codec encodes but does not decode
    back to the same value. Level [LDecoded] makes the same exclusions but those with
    [only_exact] (marked +): it is what the decoders guarantee about their results. Every
    exclusion is one use of [only_rt] or [only_exact]:
    - a literal longer than [u32::MAX] bytes ([p_number] in the literal header is a [u32]);
    - a [QuotedUtf8] that is also a valid [Quoted] (decodes as [Quoted]);
    - [AuthMechanism::ScramSha3_512] and [ScramSha3_512Plus] (decode as [Other]);
    - a search key nested deeper than 9, a body extension or thread nested deeper than 8,
      a multipart body nested deeper than 7 (recursion limits of the decoder);
    - (+) a sequence set not in normal form, if [quirk_always_normalize_sequence_sets] makes the
      encoder write the normal form;
    - (+) [ID] with an empty list when [quirk_id_empty_to_nil] makes the encoder write NIL;
    - [FlagFetch::Flag(\Recent)] (decodes as [FlagFetch::Recent]);
    - [Capability::Namespace], and [Capability::QuotaRes] of an unknown resource that is not
      lower-case (the name is lowercased by the decoder);
    - (+) [MessageDataItem::ModSeq] (written without parentheses, read with parentheses);
    - [Code::Referral] (decodes as [Code::Other]) and a [Code::Other] the decoder would read
      as something else ([other], a parameter);
    - a text starting with "[" without a code. *)

From Verif Require Import Bytes Dec Features Nom Types Utf8 Conv SeqSet Base64 Date.
Open Scope nat_scope.

Definition nonempty {A} (l : list A) : bool := match l with [] => false | _ => true end.
Definition atleast2 {A} (l : list A) : bool := match l with _ :: _ :: _ => true | _ => false end.
Definition vopt {A} (v : A -> bool) (o : option A) : bool :=
  match o with Some a => v a | None => true end.
Definition vpair {A B} (v : A -> bool) (w : B -> bool) (p : A * B) : bool :=
  v (fst p) && w (snd p).
Definition v1 {A} (v : A -> bool) (l : list A) : bool := nonempty l && forallb v l.
Definition v2 {A} (v : A -> bool) (l : list A) : bool := atleast2 l && forallb v l.

(** [u32], [NonZeroU32], [u64], [NonZeroU64] *)
Definition v_u32 (n : N) : bool := N.leb n u32_max.
Definition v_nz32 (n : N) : bool := negb (N.eqb n 0) && N.leb n u32_max.
Definition v_u64 (n : N) : bool := N.leb n u64_max.
Definition v_nz64 (n : N) : bool := negb (N.eqb n 0) && N.leb n u64_max.

(** The "other" variants can only be built by the [From<Atom>] conversions. *)
Definition is_auth_other (m : auth_mechanism) := match m with AMOther _ => true | _ => false end.
Definition is_flag_extension (f : flag) := match f with FExtension _ => true | _ => false end.
Definition is_attr_extension (f : attribute_flag) :=
  match f with AFExtension _ => true | _ => false end.
Definition is_name_extension (f : flag_name_attribute) :=
  match f with FNExtension _ => true | _ => false end.
Definition is_enable_other (c : capability_enable) :=
  match c with CEOther _ => true | _ => false end.
Definition is_resource_other (r : resource) := match r with ROther _ => true | _ => false end.
Definition is_sort_other (a : sort_algorithm) := match a with SAOther _ => true | _ => false end.
Definition is_threading_other (a : threading_algorithm) :=
  match a with TAOther _ => true | _ => false end.
Definition is_cap_other (c : capability) := match c with CapOther _ => true | _ => false end.

(** Nesting depth; a leaf has depth 1. *)
Fixpoint search_depth (k : search_key) : nat :=
  match k with
  | KAnd l => S (list_max (map search_depth l))
  | KNot k => S (search_depth k)
  | KOr a b => S (Nat.max (search_depth a) (search_depth b))
  | _ => 1
  end.
Fixpoint be_depth (b : body_extension) : nat :=
  match b with
  | BEList l => S (list_max (map be_depth l))
  | _ => 1
  end.
Fixpoint thread_depth (t : thread) : nat :=
  match t with
  | TMembers _ None => 1
  | TMembers _ (Some l) => S (list_max (map thread_depth l))
  | TNested l => S (list_max (map thread_depth l))
  end.
(** Multiparts may be nested [n] deep, and 7 deep again inside an embedded message
    (so 6 below it). *)
Fixpoint body_fits (n : nat) (b : body_structure) : bool :=
  match b with
  | BSSingle _ (SFMessage _ b' _) _ => Nat.leb 1 n && body_fits 6 b'
  | BSSingle _ _ _ => Nat.leb 1 n
  | BSMulti l _ _ => Nat.leb 1 n && forallb (body_fits (pred n)) l
  end.

(** The form in which the encoder writes a sequence set under
    [quirk_always_normalize_sequence_sets]; sets that are already in it. *)
Definition norm_set (s : sequence_set) : sequence_set := map sequence_normalize (normalize s).
Definition seq_or_uid_eqb (a b : seq_or_uid) : bool :=
  match a, b with
  | SValue x, SValue y => N.eqb x y
  | SAsterisk, SAsterisk => true
  | _, _ => false
  end.
Definition sequence_eqb (a b : sequence) : bool :=
  match a, b with
  | SSingle x, SSingle y => seq_or_uid_eqb x y
  | SRange x x', SRange y y' => seq_or_uid_eqb x y && seq_or_uid_eqb x' y'
  | _, _ => false
  end.
Fixpoint sequence_set_eqb (a b : sequence_set) : bool :=
  match a, b with
  | [], [] => true
  | x :: a', y :: b' => sequence_eqb x y && sequence_set_eqb a' b'
  | _, _ => false
  end.
Definition normal_set (s : sequence_set) : bool := sequence_set_eqb (norm_set s) s.

Inductive level := LType | LDecoded | LExact.

Section Valid.
Context {F : features}.
Variable lv : level.

Definition only_rt (b : bool) : bool := match lv with LType => true | _ => b end.
Definition only_exact (b : bool) : bool := match lv with LExact => b | _ => true end.

(** ** core.rs *)
Definition v_literal (l : literal_t) : bool :=
  literal_ok (lit_data l) && only_rt (N.leb (lenN (lit_data l)) u32_max).
Definition v_literal8 (l : literal8_t) : bool :=
  only_rt (N.leb (lenN (lit8_data l)) u32_max).
Definition v_istring (s : istring) : bool :=
  match s with
  | IQuoted s => quoted_ok s
  | IQuotedUtf8 s => ext_utf8 && utf8_ok s && only_rt (negb (quoted_ok s))
  | ILiteral l => v_literal l
  end.
Definition v_nstring : nstring -> bool := vopt v_istring.
Definition v_astring (a : astring) : bool :=
  match a with AAtom s => atom_ext_ok s | AString s => v_istring s end.
Definition v_nstring8 (n : nstring8) : bool :=
  match n with N8NString n => v_nstring n | N8Literal8 l => v_literal8 l end.
Definition v_charset (c : charset) : bool :=
  match c with CharsetAtom a => atom_ok a | CharsetQuoted q => quoted_ok q end.
Definition v_lit_or_lit8 (l : lit_or_lit8) : bool :=
  match l with LLiteral l => v_literal l | LLiteral8 l => v_literal8 l end.

(** ** sequence.rs, mailbox.rs, flag.rs, status.rs, datetime.rs, auth.rs *)
Definition v_seq_or_uid (s : seq_or_uid) : bool :=
  match s with SValue n => v_nz32 n | SAsterisk => true end.
Definition v_sequence (s : sequence) : bool :=
  match s with SSingle a => v_seq_or_uid a | SRange a b => v_seq_or_uid a && v_seq_or_uid b end.
Definition v_sequence_set (s : sequence_set) : bool :=
  v1 v_sequence s && only_exact (negb quirk_always_normalize_sequence_sets || normal_set s).

Definition v_mailbox (m : mailbox) : bool :=
  match m with MInbox => true | MOther a => v_astring a && mailbox_other_ok (astring_bytes a) end.
Definition v_list_mailbox (m : list_mailbox) : bool :=
  match m with LMToken s => list_char_string_ok s | LMString s => v_istring s end.

Definition v_flag (f : flag) : bool :=
  match f with
  | FExtension a => atom_ok a && is_flag_extension (flag_system a)
  | FKeyword a => atom_ok a
  | _ => true
  end.
Definition v_flag_fetch (f : flag_fetch) : bool :=
  match f with
  | FFFlag f => v_flag f &&
      only_rt (match f with FExtension a => negb (eqi a (bs "recent")) | _ => true end)
  | FFRecent => true
  end.
Definition v_flag_perm (f : flag_perm) : bool :=
  match f with FPFlag f => v_flag f | FPAsterisk => true end.
Definition v_flag_name (f : flag_name_attribute) : bool :=
  match f with
  | FNExtension a => atom_ok a && is_name_extension (flag_name_attribute_from a)
  | _ => true
  end.
Definition v_status_name (s : status_data_item_name) : bool :=
  match s with SNHighestModSeq => ext_condstore_qresync | _ => true end.
Definition v_status_item (s : status_data_item) : bool :=
  match s with
  | SIMessages n | SIRecent n | SIUnseen n | SIDeleted n => v_u32 n
  | SIUidNext n | SIUidValidity n => v_nz32 n
  | SIDeletedStorage n => v_u64 n
  | SIHighestModSeq n => ext_condstore_qresync && v_u64 n
  end.
Definition v_date (d : naive_date) : bool :=
  ymd_ok (d_year d) (d_month d) (d_day d) && N.leb (d_year d) 9999.
Definition v_date_time (t : date_time) : bool :=
  v_date (dt_date t) && N.ltb (dt_hour t) 24 && N.ltb (dt_min t) 60 && N.ltb (dt_sec t) 60
  && Z.ltb (-86400) (dt_offset t) && Z.ltb (dt_offset t) 86400
  && Z.eqb (Z.rem (dt_offset t) 60) 0.
Definition v_auth_mechanism (m : auth_mechanism) : bool :=
  match m with
  | AMScramSha3_512 | AMScramSha3_512Plus => only_rt false
  | AMOther a => atom_ok a && is_auth_other (auth_mechanism_from a)
  | _ => true
  end.

(** ** envelope.rs, body.rs *)
Definition v_address (a : address) : bool :=
  v_nstring (ad_name a) && v_nstring (ad_adl a) && v_nstring (ad_mailbox a)
  && v_nstring (ad_host a).
Definition v_addresses : list address -> bool := forallb v_address.
Definition v_envelope (e : envelope) : bool :=
  v_nstring (env_date e) && v_nstring (env_subject e)
  && v_addresses (env_from e) && v_addresses (env_sender e) && v_addresses (env_reply_to e)
  && v_addresses (env_to e) && v_addresses (env_cc e) && v_addresses (env_bcc e)
  && v_nstring (env_in_reply_to e) && v_nstring (env_message_id e).
Fixpoint v_body_extension (b : body_extension) : bool :=
  match b with
  | BENString n => v_nstring n
  | BENumber n => v_u32 n
  | BEList l => nonempty l && forallb v_body_extension l
  end.
Definition v_params : list (istring * istring) -> bool := forallb (vpair v_istring v_istring).
Definition v_location (l : location) : bool :=
  v_nstring (loc_location l)
  && forallb (fun b => v_body_extension b && only_rt (Nat.leb (be_depth b) 8)) (loc_extensions l).
Definition v_language (l : language) : bool :=
  forallb v_istring (lang_language l) && vopt v_location (lang_tail l).
Definition v_disposition (d : disposition) : bool :=
  vopt (vpair v_istring v_params) (disp_disposition d) && vopt v_language (disp_tail d).
Definition v_single_ext (s : single_ext) : bool :=
  v_nstring (se_md5 s) && vopt v_disposition (se_tail s).
Definition v_multi_ext (m : multi_ext) : bool :=
  v_params (me_params m) && vopt v_disposition (me_tail m).
Definition v_basic (b : basic_fields) : bool :=
  v_params (bf_params b) && v_nstring (bf_id b) && v_nstring (bf_description b)
  && v_istring (bf_encoding b) && v_u32 (bf_size b).
Fixpoint v_body_structure (b : body_structure) : bool :=
  match b with
  | BSSingle basic specific ext =>
    v_basic basic
    && match specific with
       | SFBasic t s => v_istring t && v_istring s
       | SFMessage env b' lines => v_envelope env && v_body_structure b' && v_u32 lines
       | SFText s lines => v_istring s && v_u32 lines
       end
    && vopt v_single_ext ext
  | BSMulti l s ext =>
    nonempty l && forallb v_body_structure l && v_istring s && vopt v_multi_ext ext
  end.
Definition v_body (b : body_structure) : bool :=
  v_body_structure b && only_rt (body_fits 7 b).

(** ** fetch.rs *)
Definition v_part : part -> bool := v1 v_nz32.
Definition v_section (s : section) : bool :=
  match s with
  | SecPart p | SecMime p => v_part p
  | SecHeader p | SecText p => vopt v_part p
  | SecHeaderFields p l | SecHeaderFieldsNot p l => vopt v_part p && v1 v_astring l
  end.
Definition v_partial : N * N -> bool := vpair v_u32 v_nz32.
Definition v_item_name (i : item_name) : bool :=
  match i with
  | INBodyExt s p _ => vopt v_section s && vopt v_partial p
  | INBinary s p _ => forallb v_nz32 s && vopt v_partial p
  | INBinarySize s => forallb v_nz32 s
  | INModSeq => ext_condstore_qresync
  | _ => true
  end.
Definition v_macro_or_items (m : macro_or_items) : bool :=
  match m with MIMacro _ => true | MIItems l => forallb v_item_name l end.
Definition v_message_data_item (m : message_data_item) : bool :=
  match m with
  | MDBody b | MDBodyStructure b => v_body b
  | MDBodyExt s o d => vopt v_section s && vopt v_u32 o && v_nstring d
  | MDEnvelope e => v_envelope e
  | MDFlags l => forallb v_flag_fetch l
  | MDInternalDate d => v_date_time d
  | MDRfc822 n | MDRfc822Header n | MDRfc822Text n => v_nstring n
  | MDRfc822Size n => v_u32 n
  | MDUid n => v_nz32 n
  | MDBinary s v => forallb v_nz32 s && v_nstring8 v
  | MDBinarySize s n => forallb v_nz32 s && v_u32 n
  | MDModSeq n => ext_condstore_qresync && v_nz64 n && only_exact false
  end.

(** ** extensions *)
Definition v_attribute_flag (f : attribute_flag) : bool :=
  match f with
  | AFExtension a => atom_ok a && is_attr_extension (attribute_flag_system a)
  | AFKeyword a => atom_ok a
  | _ => true
  end.
Definition v_capability_enable (c : capability_enable) : bool :=
  match c with
  | CECondStore => ext_condstore_qresync
  | CEMetadata | CEMetadataServer => ext_metadata
  | CEUtf8 _ => ext_utf8
  | CEOther a => atom_ok a && is_enable_other (capability_enable_from a)
  end.
Definition v_resource (r : resource) : bool :=
  match r with ROther a => atom_ok a && is_resource_other (resource_from a) | _ => true end.
Definition v_quota_get (q : quota_get) : bool :=
  v_resource (qg_resource q) && v_u64 (qg_usage q) && v_u64 (qg_limit q).
Definition v_quota_set (q : quota_set) : bool := v_resource (qs_resource q) && v_u64 (qs_limit q).
Definition v_sort_algorithm (a : sort_algorithm) : bool :=
  match a with SAOther a => atom_ok a && is_sort_other (sort_algorithm_from a) | _ => true end.
Definition v_threading_algorithm (a : threading_algorithm) : bool :=
  match a with
  | TAOther a => atom_ok a && is_threading_other (threading_algorithm_from a)
  | _ => true
  end.
Fixpoint v_thread_tree (t : thread) : bool :=
  match t with
  | TMembers p None => v1 v_nz32 p
  | TMembers p (Some l) => v1 v_nz32 p && atleast2 l && forallb v_thread_tree l
  | TNested l => atleast2 l && forallb v_thread_tree l
  end.
Definition v_thread (t : thread) : bool :=
  v_thread_tree t && only_rt (Nat.leb (thread_depth t) 8).
Definition v_uid_element (u : uid_element) : bool :=
  match u with UESingle n => v_nz32 n | UERange a b => v_nz32 a && v_nz32 b end.
Definition v_uid_set : uid_set -> bool := v1 v_uid_element.
Definition v_entry_value (e : entry_value) : bool :=
  v_astring (ev_entry e) && v_nstring8 (ev_value e).
Definition v_get_metadata_option (o : get_metadata_option) : bool :=
  match o with GMMaxSize n => v_u32 n | GMDepth _ => true end.
Definition v_metadata_code (c : metadata_code) : bool :=
  match c with MCLongEntries n | MCMaxSize n => v_u32 n | _ => true end.
Definition v_metadata_response (r : metadata_response) : bool :=
  match r with MRWithValues l => v1 v_entry_value l | MRWithoutValues l => v1 v_astring l end.
Definition v_namespace_ext (e : namespace_ext) : bool :=
  v_istring (ne_key e) && v1 v_istring (ne_values e).
Definition v_namespace (n : namespace) : bool :=
  v_istring (ns_prefix n) && vopt quoted_char_ok (ns_delimiter n)
  && forallb v_namespace_ext (ns_extensions n).
Definition v_id_params (p : option (list (istring * nstring))) : bool :=
  match p with
  | None => true
  | Some [] => only_exact (negb quirk_id_empty_to_nil)
  | Some l => forallb (vpair v_istring v_nstring) l
  end.

(** ** search.rs *)
Fixpoint v_search_tree (k : search_key) : bool :=
  match k with
  | KAnd l => nonempty l && forallb v_search_tree l
  | KNot k => v_search_tree k
  | KOr a b => v_search_tree a && v_search_tree b
  | KSequenceSet s | KUid s => v_sequence_set s
  | KBcc s | KBody s | KCc s | KFrom s | KSubject s | KText s | KTo s => v_astring s
  | KHeader k v => v_astring k && v_astring v
  | KBefore d | KOn d | KSince d | KSentBefore d | KSentOn d | KSentSince d => v_date d
  | KKeyword a | KUnkeyword a => atom_ok a
  | KLarger n | KSmaller n => v_u32 n
  | KModSequence e n => ext_condstore_qresync
      && vopt (vpair v_attribute_flag (fun _ => true)) e && v_u64 n
  | _ => true
  end.
Definition v_search_key (k : search_key) : bool :=
  v_search_tree k && only_rt (Nat.leb (search_depth k) 9).

(** ** command.rs *)
Definition v_select_parameter (p : select_parameter) : bool :=
  match p with
  | SPCondStore => true
  | SPQResync v m k s =>
    v_nz32 v && v_nz64 m && vopt v_sequence_set k && vopt (vpair v_sequence_set v_sequence_set) s
  end.
Definition v_fetch_modifier (m : fetch_modifier) : bool :=
  match m with FMChangedSince n => v_nz64 n | FMVanished => true end.
Definition v_store_modifier (m : store_modifier) : bool :=
  match m with SMUnchangedSince n => v_u64 n end.
(** A list-valued struct field behind a feature: empty without the feature. *)
Definition v_gated {A} (feature : bool) (v : A -> bool) (l : list A) : bool :=
  (feature || negb (nonempty l)) && forallb v l.

Definition v_command_body (c : command_body) : bool :=
  match c with
  | CCapability | CNoop | CLogout | CUnselect | CCheck | CClose | CExpunge | CIdle
  | CCompress _ => true
  | CStartTls => starttls
  | CAuthenticate m _ => v_auth_mechanism m
  | CLogin u p => v_astring u && v_astring p
  | CSelect m ps | CExamine m ps =>
    v_mailbox m && v_gated ext_condstore_qresync v_select_parameter ps
  | CCreate m | CDelete m | CSubscribe m | CUnsubscribe m | CGetQuotaRoot m => v_mailbox m
  | CRename a b => v_mailbox a && v_mailbox b
  | CList r p | CLsub r p => v_mailbox r && v_list_mailbox p
  | CStatus m l => v_mailbox m && forallb v_status_name l
  | CAppend m fl d msg =>
    v_mailbox m && forallb v_flag fl && vopt v_date_time d && v_lit_or_lit8 msg
  | CExpungeUid s => v_sequence_set s
  | CSearch cs l _ => vopt v_charset cs && v1 v_search_key l
  | CSort so cs l _ => nonempty so && v_charset cs && v1 v_search_key l
  | CThread a cs l _ => v_threading_algorithm a && v_charset cs && v1 v_search_key l
  | CFetch s m _ mods =>
    v_sequence_set s && v_macro_or_items m && v_gated ext_condstore_qresync v_fetch_modifier mods
  | CStore s _ _ fl _ mods =>
    v_sequence_set s && forallb v_flag fl && v_gated ext_condstore_qresync v_store_modifier mods
  | CCopy s m _ | CMove s m _ => v_sequence_set s && v_mailbox m
  | CEnable l => v1 v_capability_enable l
  | CGetQuota r => v_astring r
  | CSetQuota r l => v_astring r && forallb v_quota_set l
  | CId p => ext_id && v_id_params p
  | CSetMetadata m l => ext_metadata && v_mailbox m && v1 v_entry_value l
  | CGetMetadata o m l =>
    ext_metadata && forallb v_get_metadata_option o && v_mailbox m && v1 v_astring l
  | CNamespace => ext_namespace
  end.
Definition v_command (c : command) : bool := tag_ok (cmd_tag c) && v_command_body (cmd_body c).

(** ** response.rs *)
Definition v_capability (c : capability) : bool :=
  match c with
  | CapAuth m => v_auth_mechanism m
  | CapStartTls => starttls
  | CapMailboxReferrals => ext_mailbox_referrals
  | CapLoginReferrals => ext_login_referrals
  | CapQuotaRes r => v_resource r &&
      only_rt (match r with ROther a => beqs (lowers a) a | _ => true end)
  | CapId => ext_id
  | CapSort (Some a) => v_sort_algorithm a
  | CapThread a => v_threading_algorithm a
  | CapMetadata | CapMetadataServer => ext_metadata
  | CapCondStore | CapQResync => ext_condstore_qresync
  | CapNamespace => ext_namespace && only_rt false
  | CapUtf8 _ => ext_utf8
  | CapOther a => atom_ok a && is_cap_other (capability_from a)
  | _ => true
  end.

(** [other b t]: the encoding of [Code::Other(b)] in front of the text [t] is read back. *)
Variable other : bytes -> bytes -> bool.

Definition v_code (c : code) (text : bytes) : bool :=
  match c with
  | CdBadCharset l => forallb v_charset l
  | CdCapability l => v1 v_capability l
  | CdPermanentFlags l => forallb v_flag_perm l
  | CdUidNext n | CdUidValidity n | CdUnseen n => v_nz32 n
  | CdReferral s => (ext_login_referrals || ext_mailbox_referrals) && utf8_ok s && only_rt false
  | CdMetadata c => ext_metadata && v_metadata_code c
  | CdAppendUid v u => v_nz32 v && v_nz32 u
  | CdCopyUid v s d => v_nz32 v && v_uid_set s && v_uid_set d
  | CdHighestModSeq n => ext_condstore_qresync && v_nz64 n
  | CdModified s => ext_condstore_qresync && v_sequence_set s
  | CdNoModSeq | CdClosed => ext_condstore_qresync
  | CdOther b => only_rt (other b text)
  | _ => true
  end.
Definition v_code_text (c : option code) (text : bytes) : bool :=
  text_ok text &&
  match c with
  | Some c => v_code c text
  | None => only_rt (negb (starts_with (bs "[") text))
  end.
Definition v_greeting (g : greeting) : bool := v_code_text (gr_code g) (gr_text g).
Definition v_status_body (b : status_body) : bool := v_code_text (sb_code b) (sb_text b).
Definition v_status (s : status) : bool :=
  match s with
  | StUntagged b => v_status_body b
  | StTagged t b => tag_ok t && v_status_body b
  | StBye c t => v_code_text c t
  end.
Definition v_data (d : data) : bool :=
  match d with
  | DCapability l => v1 v_capability l
  | DList items delim m | DLsub items delim m =>
    forallb v_flag_name items && vopt quoted_char_ok delim && v_mailbox m
  | DStatus m items => v_mailbox m && forallb v_status_item items
  | DSearch l ms | DSort l ms =>
    forallb v_nz32 l && match ms with Some n => ext_condstore_qresync && v_nz64 n | None => true end
  | DThread l => forallb v_thread l
  | DFlags l => forallb v_flag l
  | DExists n | DRecent n => v_u32 n
  | DExpunge n => v_nz32 n
  | DFetch n items => v_nz32 n && v1 v_message_data_item items
  | DEnabled l => forallb v_capability_enable l
  | DQuota r l => v_astring r && v1 v_quota_get l
  | DQuotaRoot m l => v_mailbox m && forallb v_astring l
  | DId p => ext_id && v_id_params p
  | DMetadata m i => ext_metadata && v_mailbox m && v_metadata_response i
  | DVanished _ s => ext_condstore_qresync && v_sequence_set s
  | DNamespace a b c => ext_namespace && forallb v_namespace a && forallb v_namespace b
      && forallb v_namespace c
  end.
(** [CommandContinuationRequest::basic] refuses a text without code that starts with "[" or is
    valid base64. *)
Definition v_continuation (c : continuation) : bool :=
  match c with
  | CRBasic (Some c) t => text_ok t && v_code c t
  | CRBasic None t => text_ok t && negb (starts_with (bs "[") t)
      && match b64_decode t with Some _ => false | None => true end
  | CRBase64 _ => true
  end.
Definition v_response (r : response) : bool :=
  match r with
  | RContinue c => v_continuation c
  | RData d => v_data d
  | RStatus s => v_status s
  end.

End Valid.
