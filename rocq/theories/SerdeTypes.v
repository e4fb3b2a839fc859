(** serde: the message types of imap-types.

    [ser_T] and [de_T] model the [Serialize] and [Deserialize] implementations of the type [T],
    on top of Serde.v. Line numbers are those of the definition with its attributes in
    /repo/imap-types/src. As in Types.v, [Secret<T>] is [T] (secret.rs:17-18: a derived newtype),
    the wrappers [AuthMechanismOther], [CapabilityEnableOther], [ResourceOther],
    [SortAlgorithmOther], [ThreadingAlgorithmOther], [CapabilityOther], [FlagExtension],
    [FlagNameAttributeExtension] and [AttributeFlagExtension] are the [Atom] they wrap (derived
    newtypes without validation), and [Entry] is an [AString]. *)

From Verif Require Import Bytes Features Nom Types Utf8 Conv Base64 Date Ctors Serde.
Open Scope nat_scope.

Section SerdeTypes.
Context {F : features}.

(** ** Strings with a validation, numbers, dates *)

(** core.rs:109-112 [Atom], :259-262 [AtomExt], :760-763 [Quoted], :1057-1060 [Tag],
    :1230-1233 [Text], mailbox.rs:18-21 [ListCharString]: [serde(try_from = "String")];
    extensions/utf8.rs:33-36 [QuotedUtf8]: the same, its conversion accepts every string *)
Definition ser_atom := ser_string.
Definition de_atom := de_str atom_ok.
Definition ser_atom_ext := ser_string.
Definition de_atom_ext := de_str atom_ext_ok.
Definition ser_quoted := ser_string.
Definition de_quoted := de_str quoted_ok.
Definition ser_tag := ser_string.
Definition de_tag := de_str tag_ok.
Definition ser_text := ser_string.
Definition de_text := de_str text_ok.
Definition ser_list_char_string := ser_string.
Definition de_list_char_string := de_str list_char_string_ok.
(** core.rs:1357-1360 [QuotedChar]: [serde(try_from = "char")] *)
Definition ser_quoted_char := ser_char.
Definition de_quoted_char := de_char quoted_char_ok.

Definition ser_u32 := ser_num.
Definition de_u32 := de_num u32_max.
Definition ser_u64 := ser_num.
Definition de_u64 := de_num u64_max.
Definition ser_nz32 := ser_num.
Definition de_nz32 := de_nonzero u32_max.
Definition ser_nz64 := ser_num.
Definition de_nz64 := de_nonzero u64_max.

(** [Cow<[u8]>] *)
Definition ser_bytes : bytes -> tree := ser_vec ser_u8.
Definition de_bytes : tree -> option bytes := de_vec de_u8.
(** core.rs:534-542 [deserialize_literal_data] *)
Definition ser_literal_data := ser_bytes.
Definition de_literal_data (t : tree) : option bytes :=
  match de_bytes t with Some d => if literal_ok d then Some d else None | None => None end.

(** datetime.rs:95-97 [NaiveDate], :13-15 [DateTime]: [serde(try_from = "chrono::...")]. That a
    value of chrono is a day of the calendar and a time of the day is checked by chrono. *)
Definition ser_naive_date (d : naive_date) : tree :=
  TDate (Z.of_N (d_year d)) (d_month d) (d_day d).
Definition de_naive_date (t : tree) : option naive_date :=
  match t with
  | TDate y m d =>
    match validate_naive_date y with
    | None => if ymd_ok (Z.to_N y) m d then Some (mkDate (Z.to_N y) m d) else None
    | Some _ => None
    end
  | _ => None
  end.
Definition ser_date_time (t : date_time) : tree :=
  TDateTime (Z.of_N (d_year (dt_date t))) (d_month (dt_date t)) (d_day (dt_date t))
    (dt_hour t) (dt_min t) (dt_sec t) 0 (dt_offset t).
Definition de_date_time (t : tree) : option date_time :=
  match t with
  | TDateTime y m d hh mm ss nanos off =>
    match validate_date_time y nanos off with
    | None =>
      if ymd_ok (Z.to_N y) m d && N.ltb hh 24 && N.ltb mm 60 && N.ltb ss 60
         && Z.ltb (-86400) off && Z.ltb off 86400
      then Some (mkDateTime (mkDate (Z.to_N y) m d) hh mm ss off) else None
    | Some _ => None
    end
  | _ => None
  end.

(** ** literals and strings *)

(** core.rs:726-730 [LiteralMode] *)
Definition ser_lit_mode (a : lit_mode) : tree :=
  match a with
  | Sync => ser_name (bs "Sync")
  | NonSync => ser_name (bs "NonSync")
  end.
Definition de_lit_mode : tree -> option lit_mode :=
  de_names [
    (bs "Sync", true, Sync);
    (bs "NonSync", true, NonSync)].

(** core.rs:516-527, 534-542 [Literal] *)
Definition ser_literal_t (a : literal_t) : tree :=
  ser_struct [bs "data"; bs "mode"]
    [ser_literal_data (lit_data a); ser_lit_mode (lit_mode_of a)].
Definition de_literal_t : tree -> option literal_t :=
  de_struct [bs "data"; bs "mode"]
    (x <== req de_literal_data ;; y <== req de_lit_mode ;; fin (mkLit x y)).

(** extensions/binary.rs:28-35 [Literal8] *)
Definition ser_literal8_t (a : literal8_t) : tree :=
  ser_struct [bs "data"; bs "mode"]
    [ser_bytes (lit8_data a); ser_lit_mode (lit8_mode_of a)].
Definition de_literal8_t : tree -> option literal8_t :=
  de_struct [bs "data"; bs "mode"]
    (x <== req de_bytes ;; y <== req de_lit_mode ;; fin (mkLit8 x y)).

(** core.rs:390-401 [IString] *)
Definition ser_istring (a : istring) : tree :=
  match a with
  | ILiteral x => ser_variant (bs "Literal") (ser_literal_t x)
  | IQuoted x => ser_variant (bs "Quoted") (ser_quoted x)
  | IQuotedUtf8 x => ser_variant (bs "QuotedUtf8") (ser_string x)
  end.
Definition de_istring : tree -> option istring :=
  de_enum [
    (bs "Literal", true, c_newtype de_literal_t ILiteral);
    (bs "Quoted", true, c_newtype de_quoted IQuoted);
    (bs "QuotedUtf8", ext_utf8, c_newtype de_string IQuotedUtf8)].

(** core.rs:878-883 [NString] *)
Definition ser_nstring : nstring -> tree := ser_opt ser_istring.
Definition de_nstring : tree -> option nstring := de_opt de_istring.

(** core.rs:942-948 [AString] *)
Definition ser_astring (a : astring) : tree :=
  match a with
  | AAtom x => ser_variant (bs "Atom") (ser_atom_ext x)
  | AString x => ser_variant (bs "String") (ser_istring x)
  end.
Definition de_astring : tree -> option astring :=
  de_enum [
    (bs "Atom", true, c_newtype de_atom_ext AAtom);
    (bs "String", true, c_newtype de_istring AString)].

(** mailbox.rs:198-201 [MailboxOther]: [serde(try_from = "AString")] *)
Definition ser_mailbox_other := ser_astring.
Definition de_mailbox_other (t : tree) : option astring :=
  match de_astring t with
  | Some a => if mailbox_other_ok (astring_bytes a) then Some a else None
  | None => None
  end.

(** core.rs:1512-1518 [NString8] *)
Definition ser_nstring8 (a : nstring8) : tree :=
  match a with
  | N8NString x => ser_variant (bs "NString") (ser_nstring x)
  | N8Literal8 x => ser_variant (bs "Literal8") (ser_literal8_t x)
  end.
Definition de_nstring8 : tree -> option nstring8 :=
  de_enum [
    (bs "NString", true, c_newtype de_nstring N8NString);
    (bs "Literal8", true, c_newtype de_literal8_t N8Literal8)].

(** core.rs:1432-1438 [Charset] *)
Definition ser_charset (a : charset) : tree :=
  match a with
  | CharsetAtom x => ser_variant (bs "Atom") (ser_atom x)
  | CharsetQuoted x => ser_variant (bs "Quoted") (ser_quoted x)
  end.
Definition de_charset : tree -> option charset :=
  de_enum [
    (bs "Atom", true, c_newtype de_atom CharsetAtom);
    (bs "Quoted", true, c_newtype de_quoted CharsetQuoted)].

(** extensions/binary.rs:18-24 [LiteralOrLiteral8] *)
Definition ser_lit_or_lit8 (a : lit_or_lit8) : tree :=
  match a with
  | LLiteral x => ser_variant (bs "Literal") (ser_literal_t x)
  | LLiteral8 x => ser_variant (bs "Literal8") (ser_literal8_t x)
  end.
Definition de_lit_or_lit8 : tree -> option lit_or_lit8 :=
  de_enum [
    (bs "Literal", true, c_newtype de_literal_t LLiteral);
    (bs "Literal8", true, c_newtype de_literal8_t LLiteral8)].

(** ** sequence.rs, mailbox.rs, flag.rs, status.rs, auth.rs *)

(** sequence.rs:319-325 [SeqOrUid] *)
Definition ser_seq_or_uid (a : seq_or_uid) : tree :=
  match a with
  | SValue x => ser_variant (bs "Value") (ser_nz32 x)
  | SAsterisk => ser_unit (bs "Asterisk")
  end.
Definition de_seq_or_uid : tree -> option seq_or_uid :=
  de_enum [
    (bs "Value", true, c_newtype de_nz32 SValue);
    (bs "Asterisk", true, c_unit SAsterisk)].

(** sequence.rs:207-213 [Sequence] *)
Definition ser_sequence (a : sequence) : tree :=
  match a with
  | SSingle x => ser_variant (bs "Single") (ser_seq_or_uid x)
  | SRange x y => ser_variant (bs "Range") (TSeq [ser_seq_or_uid x; ser_seq_or_uid y])
  end.
Definition de_sequence : tree -> option sequence :=
  de_enum [
    (bs "Single", true, c_newtype de_seq_or_uid SSingle);
    (bs "Range", true, c_pair de_seq_or_uid de_seq_or_uid SRange)].

(** sequence.rs:34-36 [SequenceSet] *)
Definition ser_sequence_set : sequence_set -> tree := ser_vec ser_sequence.
Definition de_sequence_set : tree -> option sequence_set := de_vec_n 1 de_sequence.

(** mailbox.rs:173-179 [Mailbox] *)
Definition ser_mailbox (a : mailbox) : tree :=
  match a with
  | MInbox => ser_unit (bs "Inbox")
  | MOther x => ser_variant (bs "Other") (ser_mailbox_other x)
  end.
Definition de_mailbox : tree -> option mailbox :=
  de_enum [
    (bs "Inbox", true, c_unit MInbox);
    (bs "Other", true, c_newtype de_mailbox_other MOther)].

(** mailbox.rs:90-96 [ListMailbox] *)
Definition ser_list_mailbox (a : list_mailbox) : tree :=
  match a with
  | LMToken x => ser_variant (bs "Token") (ser_list_char_string x)
  | LMString x => ser_variant (bs "String") (ser_istring x)
  end.
Definition de_list_mailbox : tree -> option list_mailbox :=
  de_enum [
    (bs "Token", true, c_newtype de_list_char_string LMToken);
    (bs "String", true, c_newtype de_istring LMString)].

(** flag.rs:25-47 [Flag] *)
Definition ser_flag (a : flag) : tree :=
  match a with
  | FAnswered => ser_unit (bs "Answered")
  | FDeleted => ser_unit (bs "Deleted")
  | FDraft => ser_unit (bs "Draft")
  | FFlagged => ser_unit (bs "Flagged")
  | FSeen => ser_unit (bs "Seen")
  | FExtension x => ser_variant (bs "Extension") (ser_atom x)
  | FKeyword x => ser_variant (bs "Keyword") (ser_atom x)
  end.
Definition de_flag : tree -> option flag :=
  de_enum [
    (bs "Answered", true, c_unit FAnswered);
    (bs "Deleted", true, c_unit FDeleted);
    (bs "Draft", true, c_unit FDraft);
    (bs "Flagged", true, c_unit FFlagged);
    (bs "Seen", true, c_unit FSeen);
    (bs "Extension", true, c_newtype de_atom FExtension);
    (bs "Keyword", true, c_newtype de_atom FKeyword)].

(** flag.rs:96-105 [FlagFetch] *)
Definition ser_flag_fetch (a : flag_fetch) : tree :=
  match a with
  | FFFlag x => ser_variant (bs "Flag") (ser_flag x)
  | FFRecent => ser_unit (bs "Recent")
  end.
Definition de_flag_fetch : tree -> option flag_fetch :=
  de_enum [
    (bs "Flag", true, c_newtype de_flag FFFlag);
    (bs "Recent", true, c_unit FFRecent)].

(** flag.rs:118-127 [FlagPerm] *)
Definition ser_flag_perm (a : flag_perm) : tree :=
  match a with
  | FPFlag x => ser_variant (bs "Flag") (ser_flag x)
  | FPAsterisk => ser_unit (bs "Asterisk")
  end.
Definition de_flag_perm : tree -> option flag_perm :=
  de_enum [
    (bs "Flag", true, c_newtype de_flag FPFlag);
    (bs "Asterisk", true, c_unit FPAsterisk)].

(** flag.rs:136-164 [FlagNameAttribute] *)
Definition ser_flag_name_attribute (a : flag_name_attribute) : tree :=
  match a with
  | FNNoinferiors => ser_unit (bs "Noinferiors")
  | FNNoselect => ser_unit (bs "Noselect")
  | FNMarked => ser_unit (bs "Marked")
  | FNUnmarked => ser_unit (bs "Unmarked")
  | FNExtension x => ser_variant (bs "Extension") (ser_atom x)
  end.
Definition de_flag_name_attribute : tree -> option flag_name_attribute :=
  de_enum [
    (bs "Noinferiors", true, c_unit FNNoinferiors);
    (bs "Noselect", true, c_unit FNNoselect);
    (bs "Marked", true, c_unit FNMarked);
    (bs "Unmarked", true, c_unit FNUnmarked);
    (bs "Extension", true, c_newtype de_atom FNExtension)].

(** flag.rs:206-212 [StoreType] *)
Definition ser_store_type (a : store_type) : tree :=
  match a with
  | STReplace => ser_name (bs "Replace")
  | STAdd => ser_name (bs "Add")
  | STRemove => ser_name (bs "Remove")
  end.
Definition de_store_type : tree -> option store_type :=
  de_names [
    (bs "Replace", true, STReplace);
    (bs "Add", true, STAdd);
    (bs "Remove", true, STRemove)].

(** flag.rs:215-220 [StoreResponse] *)
Definition ser_store_response (a : store_response) : tree :=
  match a with
  | SRAnswer => ser_name (bs "Answer")
  | SRSilent => ser_name (bs "Silent")
  end.
Definition de_store_response : tree -> option store_response :=
  de_names [
    (bs "Answer", true, SRAnswer);
    (bs "Silent", true, SRSilent)].

(** status.rs:12-44 [StatusDataItemName] *)
Definition ser_status_data_item_name (a : status_data_item_name) : tree :=
  match a with
  | SNMessages => ser_name (bs "Messages")
  | SNRecent => ser_name (bs "Recent")
  | SNUidNext => ser_name (bs "UidNext")
  | SNUidValidity => ser_name (bs "UidValidity")
  | SNUnseen => ser_name (bs "Unseen")
  | SNDeleted => ser_name (bs "Deleted")
  | SNDeletedStorage => ser_name (bs "DeletedStorage")
  | SNHighestModSeq => ser_name (bs "HighestModSeq")
  end.
Definition de_status_data_item_name : tree -> option status_data_item_name :=
  de_names [
    (bs "Messages", true, SNMessages);
    (bs "Recent", true, SNRecent);
    (bs "UidNext", true, SNUidNext);
    (bs "UidValidity", true, SNUidValidity);
    (bs "Unseen", true, SNUnseen);
    (bs "Deleted", true, SNDeleted);
    (bs "DeletedStorage", true, SNDeletedStorage);
    (bs "HighestModSeq", ext_condstore_qresync, SNHighestModSeq)].

(** status.rs:44-80 [StatusDataItem] *)
Definition ser_status_data_item (a : status_data_item) : tree :=
  match a with
  | SIMessages x => ser_variant (bs "Messages") (ser_u32 x)
  | SIRecent x => ser_variant (bs "Recent") (ser_u32 x)
  | SIUidNext x => ser_variant (bs "UidNext") (ser_nz32 x)
  | SIUidValidity x => ser_variant (bs "UidValidity") (ser_nz32 x)
  | SIUnseen x => ser_variant (bs "Unseen") (ser_u32 x)
  | SIDeleted x => ser_variant (bs "Deleted") (ser_u32 x)
  | SIDeletedStorage x => ser_variant (bs "DeletedStorage") (ser_u64 x)
  | SIHighestModSeq x => ser_variant (bs "HighestModSeq") (ser_u64 x)
  end.
Definition de_status_data_item : tree -> option status_data_item :=
  de_enum [
    (bs "Messages", true, c_newtype de_u32 SIMessages);
    (bs "Recent", true, c_newtype de_u32 SIRecent);
    (bs "UidNext", true, c_newtype de_nz32 SIUidNext);
    (bs "UidValidity", true, c_newtype de_nz32 SIUidValidity);
    (bs "Unseen", true, c_newtype de_u32 SIUnseen);
    (bs "Deleted", true, c_newtype de_u32 SIDeleted);
    (bs "DeletedStorage", true, c_newtype de_u64 SIDeletedStorage);
    (bs "HighestModSeq", ext_condstore_qresync, c_newtype de_u64 SIHighestModSeq)].

(** auth.rs:22-109, 200-202 [AuthMechanism] *)
Definition ser_auth_mechanism (a : auth_mechanism) : tree :=
  match a with
  | AMPlain => ser_unit (bs "Plain")
  | AMLogin => ser_unit (bs "Login")
  | AMOAuthBearer => ser_unit (bs "OAuthBearer")
  | AMXOAuth2 => ser_unit (bs "XOAuth2")
  | AMScramSha1 => ser_unit (bs "ScramSha1")
  | AMScramSha1Plus => ser_unit (bs "ScramSha1Plus")
  | AMScramSha256 => ser_unit (bs "ScramSha256")
  | AMScramSha256Plus => ser_unit (bs "ScramSha256Plus")
  | AMScramSha3_512 => ser_unit (bs "ScramSha3_512")
  | AMScramSha3_512Plus => ser_unit (bs "ScramSha3_512Plus")
  | AMOther x => ser_variant (bs "Other") (ser_atom x)
  end.
Definition de_auth_mechanism : tree -> option auth_mechanism :=
  de_enum [
    (bs "Plain", true, c_unit AMPlain);
    (bs "Login", true, c_unit AMLogin);
    (bs "OAuthBearer", true, c_unit AMOAuthBearer);
    (bs "XOAuth2", true, c_unit AMXOAuth2);
    (bs "ScramSha1", true, c_unit AMScramSha1);
    (bs "ScramSha1Plus", true, c_unit AMScramSha1Plus);
    (bs "ScramSha256", true, c_unit AMScramSha256);
    (bs "ScramSha256Plus", true, c_unit AMScramSha256Plus);
    (bs "ScramSha3_512", true, c_unit AMScramSha3_512);
    (bs "ScramSha3_512Plus", true, c_unit AMScramSha3_512Plus);
    (bs "Other", true, c_newtype de_atom AMOther)].

(** auth.rs:208-219 [AuthenticateData] *)
Definition ser_authenticate_data (a : authenticate_data) : tree :=
  match a with
  | ADContinue x => ser_variant (bs "Continue") (ser_bytes x)
  | ADCancel => ser_unit (bs "Cancel")
  end.
Definition de_authenticate_data : tree -> option authenticate_data :=
  de_enum [
    (bs "Continue", true, c_newtype de_bytes ADContinue);
    (bs "Cancel", true, c_unit ADCancel)].

(** ** envelope.rs, body.rs *)

(** envelope.rs:41-52 [Address] *)
Definition ser_address (a : address) : tree :=
  ser_struct [bs "name"; bs "adl"; bs "mailbox";
    bs "host"] [ser_nstring (ad_name a); ser_nstring (ad_adl a); ser_nstring (ad_mailbox a);
    ser_nstring (ad_host a)].
Definition de_address : tree -> option address :=
  de_struct [bs "name"; bs "adl"; bs
    "mailbox"; bs "host"] (x <== req de_nstring ;; y <== req de_nstring ;;
    z <== req de_nstring ;; u <== req de_nstring ;; fin (mkAddress x y z u)).

(** envelope.rs:12-32 [Envelope] *)
Definition ser_envelope (a : envelope) : tree :=
  ser_struct [bs "date"; bs "subject"; bs
    "from"; bs "sender"; bs "reply_to"; bs "to"; bs "cc"; bs "bcc"; bs "in_reply_to"; bs
    "message_id"] [ser_nstring (env_date a); ser_nstring (env_subject a); ser_vec ser_address
    (env_from a); ser_vec ser_address (env_sender a); ser_vec ser_address (env_reply_to a);
    ser_vec ser_address (env_to a); ser_vec ser_address (env_cc a); ser_vec ser_address
    (env_bcc a); ser_nstring (env_in_reply_to a); ser_nstring (env_message_id a)].
Definition de_envelope : tree -> option envelope :=
  de_struct [bs "date"; bs "subject"; bs
    "from"; bs "sender"; bs "reply_to"; bs "to"; bs "cc"; bs "bcc"; bs "in_reply_to"; bs
    "message_id"] (x <== req de_nstring ;; y <== req de_nstring ;;
    z <== req (de_vec de_address) ;; u <== req (de_vec de_address) ;;
    v <== req (de_vec de_address) ;; w <== req (de_vec de_address) ;;
    p <== req (de_vec de_address) ;; q <== req (de_vec de_address) ;; r <== req de_nstring ;;
    s <== req de_nstring ;; fin (mkEnvelope x y z u v w p q r s)).

(** body.rs:330-350 [BodyExtension] *)
Fixpoint ser_body_extension (a : body_extension) : tree :=
  match a with
  | BENString x => ser_variant (bs "NString") (ser_nstring x)
  | BENumber x => ser_variant (bs "Number") (ser_u32 x)
  | BEList x => ser_variant (bs "List") (ser_vec ser_body_extension x)
  end.
Fixpoint de_body_extension_n (n : nat) (t : tree) : option body_extension :=
  match n with
  | O => None
  | S n =>
  de_enum [
    (bs "NString", true, c_newtype de_nstring BENString);
    (bs "Number", true, c_newtype de_u32 BENumber);
    (bs "List", true, c_newtype (de_vec_n 1 (de_body_extension_n n)) BEList)] t
  end.
Definition de_body_extension (t : tree) : option body_extension := de_body_extension_n (height t) t.

(** body.rs:319-327 [Location] *)
Definition ser_location (a : location) : tree :=
  ser_struct [bs "location"; bs "extensions"]
    [ser_nstring (loc_location a); ser_vec ser_body_extension (loc_extensions a)].
Definition de_location : tree -> option location :=
  de_struct [bs "location"; bs
    "extensions"] (x <== req de_nstring ;; y <== req (de_vec de_body_extension) ;; fin
    (mkLocation x y)).

(** body.rs:306-316 [Language] *)
Definition ser_language (a : language) : tree :=
  ser_struct [bs "language"; bs "tail"]
    [ser_vec ser_istring (lang_language a); ser_opt ser_location (lang_tail a)].
Definition de_language : tree -> option language :=
  de_struct [bs "language"; bs "tail"]
    (x <== req (de_vec de_istring) ;; y <== opt de_location ;; fin (mkLanguage x y)).

(** body.rs:292-303 [Disposition] *)
Definition ser_disposition (a : disposition) : tree :=
  ser_struct [bs "disposition"; bs
    "tail"] [ser_opt (ser_pair ser_istring (ser_vec (ser_pair ser_istring ser_istring)))
    (disp_disposition a); ser_opt ser_language (disp_tail a)].
Definition de_disposition : tree -> option disposition :=
  de_struct [bs "disposition"; bs
    "tail"] (x <== opt (de_pair de_istring (de_vec (de_pair de_istring de_istring))) ;;
    y <== opt de_language ;; fin (mkDisposition x y)).

(** body.rs:253-263 [SinglePartExtensionData] *)
Definition ser_single_ext (a : single_ext) : tree :=
  ser_struct [bs "md5"; bs "tail"]
    [ser_nstring (se_md5 a); ser_opt ser_disposition (se_tail a)].
Definition de_single_ext : tree -> option single_ext :=
  de_struct [bs "md5"; bs "tail"]
    (x <== req de_nstring ;; y <== opt de_disposition ;; fin (mkSingleExt x y)).

(** body.rs:278-288 [MultiPartExtensionData] *)
Definition ser_multi_ext (a : multi_ext) : tree :=
  ser_struct [bs "parameter_list"; bs
    "tail"] [ser_vec (ser_pair ser_istring ser_istring) (me_params a); ser_opt ser_disposition
    (me_tail a)].
Definition de_multi_ext : tree -> option multi_ext :=
  de_struct [bs "parameter_list"; bs
    "tail"] (x <== req (de_vec (de_pair de_istring de_istring)) ;; y <== opt de_disposition ;;
    fin (mkMultiExt x y)).

(** body.rs:27-48 [BasicFields] *)
Definition ser_basic_fields (a : basic_fields) : tree :=
  ser_struct [bs "parameter_list"; bs
    "id"; bs "description"; bs "content_transfer_encoding"; bs "size"] [ser_vec (ser_pair
    ser_istring ser_istring) (bf_params a); ser_nstring (bf_id a); ser_nstring (bf_description
    a); ser_istring (bf_encoding a); ser_u32 (bf_size a)].
Definition de_basic_fields : tree -> option basic_fields :=
  de_struct [bs "parameter_list";
    bs "id"; bs "description"; bs "content_transfer_encoding"; bs "size"]
    (x <== req (de_vec (de_pair de_istring de_istring)) ;; y <== req de_nstring ;;
    z <== req de_nstring ;; u <== req de_istring ;; v <== req de_u32 ;; fin (mkBasic x y z u
    v)).

(** body.rs:16-23 [Body], :51-95 [SpecificFields], :169-244 [BodyStructure]. [Body] is inlined
    into [BSSingle]. *)
Fixpoint ser_body_structure (a : body_structure) : tree :=
  match a with
  | BSSingle basic specific ext =>
    ser_variant (bs "Single") (ser_struct [bs "body"; bs "extension_data"]
      [ser_struct [bs "basic"; bs "specific"]
         [ser_basic_fields basic; ser_specific_fields specific];
       ser_opt ser_single_ext ext])
  | BSMulti bodies subtype ext =>
    ser_variant (bs "Multi") (ser_struct [bs "bodies"; bs "subtype"; bs "extension_data"]
      [ser_vec ser_body_structure bodies; ser_istring subtype; ser_opt ser_multi_ext ext])
  end
with ser_specific_fields (a : specific_fields) : tree :=
  match a with
  | SFBasic type_ subtype =>
    ser_variant (bs "Basic") (ser_struct [bs "type"; bs "subtype"]
      [ser_istring type_; ser_istring subtype])
  | SFMessage env b lines =>
    ser_variant (bs "Message")
      (ser_struct [bs "envelope"; bs "body_structure"; bs "number_of_lines"]
        [ser_envelope env; ser_body_structure b; ser_u32 lines])
  | SFText subtype lines =>
    ser_variant (bs "Text") (ser_struct [bs "subtype"; bs "number_of_lines"]
      [ser_istring subtype; ser_u32 lines])
  end.
Definition de_specific_fields (body_structure : tree -> option body_structure)
  : tree -> option specific_fields :=
  de_enum [
    (bs "Basic", true, c_struct [bs "type"; bs "subtype"]
      (x <== req de_istring ;; y <== req de_istring ;; fin (SFBasic x y)));
    (bs "Message", true, c_struct [bs "envelope"; bs "body_structure"; bs "number_of_lines"]
      (x <== req de_envelope ;; y <== req body_structure ;; z <== req de_u32 ;;
       fin (SFMessage x y z)));
    (bs "Text", true, c_struct [bs "subtype"; bs "number_of_lines"]
      (x <== req de_istring ;; y <== req de_u32 ;; fin (SFText x y)))].
Fixpoint de_body_structure_n (n : nat) (t : tree) : option body_structure :=
  match n with
  | O => None
  | S n =>
    de_enum [
      (bs "Single", true, c_struct [bs "body"; bs "extension_data"]
        (x <== req (de_struct [bs "basic"; bs "specific"]
                (x <== req de_basic_fields ;;
                 y <== req (de_specific_fields (de_body_structure_n n)) ;; fin (x, y))) ;;
         y <== opt de_single_ext ;; fin (BSSingle (fst x) (snd x) y)));
      (bs "Multi", true, c_struct [bs "bodies"; bs "subtype"; bs "extension_data"]
        (x <== req (de_vec_n 1 (de_body_structure_n n)) ;; y <== req de_istring ;;
         z <== opt de_multi_ext ;; fin (BSMulti x y z)))] t
  end.
Definition de_body_structure (t : tree) : option body_structure :=
  de_body_structure_n (height t) t.

(** ** fetch.rs *)

(** fetch.rs:26-35 [Macro] *)
Definition ser_macro (a : macro) : tree :=
  match a with
  | MacroFast => ser_unit (bs "Fast")
  | MacroAll => ser_unit (bs "All")
  | MacroFull => ser_unit (bs "Full")
  end.
Definition de_macro : tree -> option macro :=
  de_enum [
    (bs "Fast", true, c_unit MacroFast);
    (bs "All", true, c_unit MacroAll);
    (bs "Full", true, c_unit MacroFull)].

(** fetch.rs:460-462 [Part] *)
Definition ser_part : part -> tree := ser_vec ser_nz32.
Definition de_part : tree -> option part := de_vec_n 1 de_nz32.

(** fetch.rs:435-458 [Section] *)
Definition ser_section (a : section) : tree :=
  match a with
  | SecPart x => ser_variant (bs "Part") (ser_part x)
  | SecHeader x => ser_variant (bs "Header") (ser_opt ser_part x)
  | SecHeaderFields x y => ser_variant (bs "HeaderFields") (TSeq [ser_opt ser_part x; ser_vec
      ser_astring y])
  | SecHeaderFieldsNot x y => ser_variant (bs "HeaderFieldsNot") (TSeq [ser_opt ser_part x;
      ser_vec ser_astring y])
  | SecText x => ser_variant (bs "Text") (ser_opt ser_part x)
  | SecMime x => ser_variant (bs "Mime") (ser_part x)
  end.
Definition de_section : tree -> option section :=
  de_enum [
    (bs "Part", true, c_newtype de_part SecPart);
    (bs "Header", true, c_newopt de_part SecHeader);
    (bs "HeaderFields", true, c_pair (de_opt de_part) (de_vec_n 1 de_astring) SecHeaderFields);
    (bs "HeaderFieldsNot", true, c_pair (de_opt de_part) (de_vec_n 1 de_astring)
      SecHeaderFieldsNot);
    (bs "Text", true, c_newopt de_part SecText);
    (bs "Mime", true, c_newtype de_part SecMime)].

(** fetch.rs:88-196 [MessageDataItemName] *)
Definition ser_item_name (a : item_name) : tree :=
  match a with
  | INBody => ser_unit (bs "Body")
  | INBodyExt x y z => ser_variant (bs "BodyExt") (ser_struct [bs "section"; bs "partial"; bs
      "peek"] [ser_opt ser_section x; ser_opt (ser_pair ser_u32 ser_nz32) y; ser_bool z])
  | INBodyStructure => ser_unit (bs "BodyStructure")
  | INEnvelope => ser_unit (bs "Envelope")
  | INFlags => ser_unit (bs "Flags")
  | INInternalDate => ser_unit (bs "InternalDate")
  | INRfc822 => ser_unit (bs "Rfc822")
  | INRfc822Header => ser_unit (bs "Rfc822Header")
  | INRfc822Size => ser_unit (bs "Rfc822Size")
  | INRfc822Text => ser_unit (bs "Rfc822Text")
  | INUid => ser_unit (bs "Uid")
  | INBinary x y z => ser_variant (bs "Binary") (ser_struct [bs "section"; bs "partial"; bs
      "peek"] [ser_vec ser_nz32 x; ser_opt (ser_pair ser_u32 ser_nz32) y; ser_bool z])
  | INBinarySize x => ser_variant (bs "BinarySize") (ser_struct [bs "section"] [ser_vec ser_nz32
      x])
  | INModSeq => ser_unit (bs "ModSeq")
  end.
Definition de_item_name : tree -> option item_name :=
  de_enum [
    (bs "Body", true, c_unit INBody);
    (bs "BodyExt", true, c_struct [bs "section"; bs "partial"; bs "peek"] (x <== opt de_section ;;
      y <== opt (de_pair de_u32 de_nz32) ;; z <== req de_bool ;; fin (INBodyExt x y z)));
    (bs "BodyStructure", true, c_unit INBodyStructure);
    (bs "Envelope", true, c_unit INEnvelope);
    (bs "Flags", true, c_unit INFlags);
    (bs "InternalDate", true, c_unit INInternalDate);
    (bs "Rfc822", true, c_unit INRfc822);
    (bs "Rfc822Header", true, c_unit INRfc822Header);
    (bs "Rfc822Size", true, c_unit INRfc822Size);
    (bs "Rfc822Text", true, c_unit INRfc822Text);
    (bs "Uid", true, c_unit INUid);
    (bs "Binary", true, c_struct [bs "section"; bs "partial"; bs "peek"]
      (x <== req (de_vec de_nz32) ;; y <== opt (de_pair de_u32 de_nz32) ;; z <== req de_bool ;;
      fin (INBinary x y z)));
    (bs "BinarySize", true, c_struct [bs "section"] (x <== req (de_vec de_nz32) ;; fin
      (INBinarySize x)));
    (bs "ModSeq", ext_condstore_qresync, c_unit INModSeq)].

(** fetch.rs:65-71 [MacroOrMessageDataItemNames] *)
Definition ser_macro_or_items (a : macro_or_items) : tree :=
  match a with
  | MIMacro x => ser_variant (bs "Macro") (ser_macro x)
  | MIItems x => ser_variant (bs "MessageDataItemNames") (ser_vec ser_item_name x)
  end.
Definition de_macro_or_items : tree -> option macro_or_items :=
  de_enum [
    (bs "Macro", true, c_newtype de_macro MIMacro);
    (bs "MessageDataItemNames", true, c_newtype (de_vec de_item_name) MIItems)].

(** fetch.rs:252-376 [MessageDataItem] *)
Definition ser_message_data_item (a : message_data_item) : tree :=
  match a with
  | MDBody x => ser_variant (bs "Body") (ser_body_structure x)
  | MDBodyExt x y z => ser_variant (bs "BodyExt") (ser_struct [bs "section"; bs "origin"; bs
      "data"] [ser_opt ser_section x; ser_opt ser_u32 y; ser_nstring z])
  | MDBodyStructure x => ser_variant (bs "BodyStructure") (ser_body_structure x)
  | MDEnvelope x => ser_variant (bs "Envelope") (ser_envelope x)
  | MDFlags x => ser_variant (bs "Flags") (ser_vec ser_flag_fetch x)
  | MDInternalDate x => ser_variant (bs "InternalDate") (ser_date_time x)
  | MDRfc822 x => ser_variant (bs "Rfc822") (ser_nstring x)
  | MDRfc822Header x => ser_variant (bs "Rfc822Header") (ser_nstring x)
  | MDRfc822Size x => ser_variant (bs "Rfc822Size") (ser_u32 x)
  | MDRfc822Text x => ser_variant (bs "Rfc822Text") (ser_nstring x)
  | MDUid x => ser_variant (bs "Uid") (ser_nz32 x)
  | MDBinary x y => ser_variant (bs "Binary") (ser_struct [bs "section"; bs "value"] [ser_vec
      ser_nz32 x; ser_nstring8 y])
  | MDBinarySize x y => ser_variant (bs "BinarySize") (ser_struct [bs "section"; bs "size"]
      [ser_vec ser_nz32 x; ser_u32 y])
  | MDModSeq x => ser_variant (bs "ModSeq") (ser_nz64 x)
  end.
Definition de_message_data_item : tree -> option message_data_item :=
  de_enum [
    (bs "Body", true, c_newtype de_body_structure MDBody);
    (bs "BodyExt", true, c_struct [bs "section"; bs "origin"; bs "data"] (x <== opt de_section ;;
      y <== opt de_u32 ;; z <== req de_nstring ;; fin (MDBodyExt x y z)));
    (bs "BodyStructure", true, c_newtype de_body_structure MDBodyStructure);
    (bs "Envelope", true, c_newtype de_envelope MDEnvelope);
    (bs "Flags", true, c_newtype (de_vec de_flag_fetch) MDFlags);
    (bs "InternalDate", true, c_newtype de_date_time MDInternalDate);
    (bs "Rfc822", true, c_newtype de_nstring MDRfc822);
    (bs "Rfc822Header", true, c_newtype de_nstring MDRfc822Header);
    (bs "Rfc822Size", true, c_newtype de_u32 MDRfc822Size);
    (bs "Rfc822Text", true, c_newtype de_nstring MDRfc822Text);
    (bs "Uid", true, c_newtype de_nz32 MDUid);
    (bs "Binary", true, c_struct [bs "section"; bs "value"] (x <== req (de_vec de_nz32) ;;
      y <== req de_nstring8 ;; fin (MDBinary x y)));
    (bs "BinarySize", true, c_struct [bs "section"; bs "size"] (x <== req (de_vec de_nz32) ;;
      y <== req de_u32 ;; fin (MDBinarySize x y)));
    (bs "ModSeq", ext_condstore_qresync, c_newtype de_nz64 MDModSeq)].

(** ** extensions *)

(** extensions/condstore_qresync.rs:11-42 [AttributeFlag] *)
Definition ser_attribute_flag (a : attribute_flag) : tree :=
  match a with
  | AFAnswered => ser_unit (bs "Answered")
  | AFDeleted => ser_unit (bs "Deleted")
  | AFDraft => ser_unit (bs "Draft")
  | AFFlagged => ser_unit (bs "Flagged")
  | AFSeen => ser_unit (bs "Seen")
  | AFExtension x => ser_variant (bs "Extension") (ser_atom x)
  | AFKeyword x => ser_variant (bs "Keyword") (ser_atom x)
  end.
Definition de_attribute_flag : tree -> option attribute_flag :=
  de_enum [
    (bs "Answered", true, c_unit AFAnswered);
    (bs "Deleted", true, c_unit AFDeleted);
    (bs "Draft", true, c_unit AFDraft);
    (bs "Flagged", true, c_unit AFFlagged);
    (bs "Seen", true, c_unit AFSeen);
    (bs "Extension", true, c_newtype de_atom AFExtension);
    (bs "Keyword", true, c_newtype de_atom AFKeyword)].

(** extensions/condstore_qresync.rs:71-78 [EntryTypeReq] *)
Definition ser_entry_type_req (a : entry_type_req) : tree :=
  match a with
  | ETPrivate => ser_name (bs "Private")
  | ETShared => ser_name (bs "Shared")
  | ETAll => ser_name (bs "All")
  end.
Definition de_entry_type_req : tree -> option entry_type_req :=
  de_names [
    (bs "Private", true, ETPrivate);
    (bs "Shared", true, ETShared);
    (bs "All", true, ETAll)].

(** extensions/utf8.rs:13-20 [Utf8Kind] *)
Definition ser_utf8_kind (a : utf8_kind) : tree :=
  match a with
  | Utf8Accept => ser_unit (bs "Accept")
  | Utf8Only => ser_unit (bs "Only")
  end.
Definition de_utf8_kind : tree -> option utf8_kind :=
  de_enum [
    (bs "Accept", true, c_unit Utf8Accept);
    (bs "Only", true, c_unit Utf8Only)].

(** extensions/enable.rs:37-56, 101-103 [CapabilityEnable] *)
Definition ser_capability_enable (a : capability_enable) : tree :=
  match a with
  | CECondStore => ser_unit (bs "CondStore")
  | CEMetadata => ser_unit (bs "Metadata")
  | CEMetadataServer => ser_unit (bs "MetadataServer")
  | CEUtf8 x => ser_variant (bs "Utf8") (ser_utf8_kind x)
  | CEOther x => ser_variant (bs "Other") (ser_atom x)
  end.
Definition de_capability_enable : tree -> option capability_enable :=
  de_enum [
    (bs "CondStore", ext_condstore_qresync, c_unit CECondStore);
    (bs "Metadata", ext_metadata, c_unit CEMetadata);
    (bs "MetadataServer", ext_metadata, c_unit CEMetadataServer);
    (bs "Utf8", ext_utf8, c_newtype de_utf8_kind CEUtf8);
    (bs "Other", true, c_newtype de_atom CEOther)].

(** extensions/compress.rs:37-44 [CompressionAlgorithm] *)
Definition ser_compression_algorithm (a : compression_algorithm) : tree :=
  match a with
  | Deflate => ser_unit (bs "Deflate")
  end.
Definition de_compression_algorithm : tree -> option compression_algorithm :=
  de_enum [
    (bs "Deflate", true, c_unit Deflate)].

(** extensions/quota.rs:125-151, 187-189 [Resource] *)
Definition ser_resource (a : resource) : tree :=
  match a with
  | RStorage => ser_unit (bs "Storage")
  | RMessage => ser_unit (bs "Message")
  | RMailbox => ser_unit (bs "Mailbox")
  | RAnnotationStorage => ser_unit (bs "AnnotationStorage")
  | ROther x => ser_variant (bs "Other") (ser_atom x)
  end.
Definition de_resource : tree -> option resource :=
  de_enum [
    (bs "Storage", true, c_unit RStorage);
    (bs "Message", true, c_unit RMessage);
    (bs "Mailbox", true, c_unit RMailbox);
    (bs "AnnotationStorage", true, c_unit RAnnotationStorage);
    (bs "Other", true, c_newtype de_atom ROther)].

(** extensions/quota.rs:223-230 [QuotaGet] *)
Definition ser_quota_get (a : quota_get) : tree :=
  ser_struct [bs "resource"; bs "usage"; bs
    "limit"] [ser_resource (qg_resource a); ser_u64 (qg_usage a); ser_u64 (qg_limit a)].
Definition de_quota_get : tree -> option quota_get :=
  de_struct [bs "resource"; bs "usage";
    bs "limit"] (x <== req de_resource ;; y <== req de_u64 ;; z <== req de_u64 ;; fin
    (mkQuotaGet x y z)).

(** extensions/quota.rs:244-250 [QuotaSet] *)
Definition ser_quota_set (a : quota_set) : tree :=
  ser_struct [bs "resource"; bs "limit"]
    [ser_resource (qs_resource a); ser_u64 (qs_limit a)].
Definition de_quota_set : tree -> option quota_set :=
  de_struct [bs "resource"; bs "limit"]
    (x <== req de_resource ;; y <== req de_u64 ;; fin (mkQuotaSet x y)).

(** extensions/sort.rs:13-19, 42-44 [SortAlgorithm] *)
Definition ser_sort_algorithm (a : sort_algorithm) : tree :=
  match a with
  | SADisplay => ser_unit (bs "Display")
  | SAOther x => ser_variant (bs "Other") (ser_atom x)
  end.
Definition de_sort_algorithm : tree -> option sort_algorithm :=
  de_enum [
    (bs "Display", true, c_unit SADisplay);
    (bs "Other", true, c_newtype de_atom SAOther)].

(** extensions/sort.rs:61-77 [SortKey] *)
Definition ser_sort_key (a : sort_key) : tree :=
  match a with
  | SKArrival => ser_name (bs "Arrival")
  | SKCc => ser_name (bs "Cc")
  | SKDate => ser_name (bs "Date")
  | SKFrom => ser_name (bs "From")
  | SKSize => ser_name (bs "Size")
  | SKSubject => ser_name (bs "Subject")
  | SKTo => ser_name (bs "To")
  | SKDisplayFrom => ser_name (bs "DisplayFrom")
  | SKDisplayTo => ser_name (bs "DisplayTo")
  end.
Definition de_sort_key : tree -> option sort_key :=
  de_names [
    (bs "Arrival", true, SKArrival);
    (bs "Cc", true, SKCc);
    (bs "Date", true, SKDate);
    (bs "From", true, SKFrom);
    (bs "Size", true, SKSize);
    (bs "Subject", true, SKSubject);
    (bs "To", true, SKTo);
    (bs "DisplayFrom", true, SKDisplayFrom);
    (bs "DisplayTo", true, SKDisplayTo)].

(** extensions/sort.rs:53-58 [SortCriterion] *)
Definition ser_sort_criterion (a : sort_criterion) : tree :=
  ser_struct [bs "reverse"; bs
    "key"] [ser_bool (so_reverse a); ser_sort_key (so_key a)].
Definition de_sort_criterion : tree -> option sort_criterion :=
  de_struct [bs "reverse"; bs
    "key"] (x <== req de_bool ;; y <== req de_sort_key ;; fin (mkSort x y)).

(** extensions/thread.rs:16-29 [Thread] *)
Fixpoint ser_thread (a : thread) : tree :=
  match a with
  | TMembers x y => ser_variant (bs "Members") (ser_struct [bs "prefix"; bs "answers"] [ser_vec
      ser_nz32 x; ser_opt (ser_vec ser_thread) y])
  | TNested x => ser_variant (bs "Nested") (ser_struct [bs "answers"] [ser_vec ser_thread x])
  end.
Fixpoint de_thread_n (n : nat) (t : tree) : option thread :=
  match n with
  | O => None
  | S n =>
  de_enum [
    (bs "Members", true, c_struct [bs "prefix"; bs "answers"] (x <== req (de_vec_n 1 de_nz32) ;;
      y <== opt (de_vec_n 2 (de_thread_n n)) ;; fin (TMembers x y)));
    (bs "Nested", true, c_struct [bs "answers"] (x <== req (de_vec_n 2 (de_thread_n n)) ;; fin
      (TNested x)))] t
  end.
Definition de_thread (t : tree) : option thread := de_thread_n (height t) t.

(** extensions/thread.rs:139-146, 171-173 [ThreadingAlgorithm] *)
Definition ser_threading_algorithm (a : threading_algorithm) : tree :=
  match a with
  | TAOrderedSubject => ser_unit (bs "OrderedSubject")
  | TAReferences => ser_unit (bs "References")
  | TAOther x => ser_variant (bs "Other") (ser_atom x)
  end.
Definition de_threading_algorithm : tree -> option threading_algorithm :=
  de_enum [
    (bs "OrderedSubject", true, c_unit TAOrderedSubject);
    (bs "References", true, c_unit TAReferences);
    (bs "Other", true, c_newtype de_atom TAOther)].

(** extensions/uidplus.rs:17-23 [UidElement] *)
Definition ser_uid_element (a : uid_element) : tree :=
  match a with
  | UESingle x => ser_variant (bs "Single") (ser_nz32 x)
  | UERange x y => ser_variant (bs "Range") (TSeq [ser_nz32 x; ser_nz32 y])
  end.
Definition de_uid_element : tree -> option uid_element :=
  de_enum [
    (bs "Single", true, c_newtype de_nz32 UESingle);
    (bs "Range", true, c_pair de_nz32 de_nz32 UERange)].

(** extensions/uidplus.rs:12-14 [UidSet] *)
Definition ser_uid_set : uid_set -> tree := ser_vec ser_uid_element.
Definition de_uid_set : tree -> option uid_set := de_vec_n 1 de_uid_element.

(** extensions/metadata.rs:13-18, 22-24 [EntryValue] *)
Definition ser_entry_value (a : entry_value) : tree :=
  ser_struct [bs "entry"; bs "value"]
    [ser_astring (ev_entry a); ser_nstring8 (ev_value a)].
Definition de_entry_value : tree -> option entry_value :=
  de_struct [bs "entry"; bs "value"]
    (x <== req de_astring ;; y <== req de_nstring8 ;; fin (mkEntryValue x y)).

(** extensions/metadata.rs:66-78 [Depth] *)
Definition ser_depth (a : depth) : tree :=
  match a with
  | DepthNull => ser_name (bs "Null")
  | DepthOne => ser_name (bs "One")
  | DepthInfinity => ser_name (bs "Infinity")
  end.
Definition de_depth : tree -> option depth :=
  de_names [
    (bs "Null", true, DepthNull);
    (bs "One", true, DepthOne);
    (bs "Infinity", true, DepthInfinity)].

(** extensions/metadata.rs:49-63 [GetMetadataOption] *)
Definition ser_get_metadata_option (a : get_metadata_option) : tree :=
  match a with
  | GMMaxSize x => ser_variant (bs "MaxSize") (ser_u32 x)
  | GMDepth x => ser_variant (bs "Depth") (ser_depth x)
  end.
Definition de_get_metadata_option : tree -> option get_metadata_option :=
  de_enum [
    (bs "MaxSize", true, c_newtype de_u32 GMMaxSize);
    (bs "Depth", true, c_newtype de_depth GMDepth)].

(** extensions/metadata.rs:78-87 [MetadataCode] *)
Definition ser_metadata_code (a : metadata_code) : tree :=
  match a with
  | MCLongEntries x => ser_variant (bs "LongEntries") (ser_u32 x)
  | MCMaxSize x => ser_variant (bs "MaxSize") (ser_u32 x)
  | MCTooMany => ser_unit (bs "TooMany")
  | MCNoPrivate => ser_unit (bs "NoPrivate")
  end.
Definition de_metadata_code : tree -> option metadata_code :=
  de_enum [
    (bs "LongEntries", true, c_newtype de_u32 MCLongEntries);
    (bs "MaxSize", true, c_newtype de_u32 MCMaxSize);
    (bs "TooMany", true, c_unit MCTooMany);
    (bs "NoPrivate", true, c_unit MCNoPrivate)].

(** extensions/metadata.rs:89-95 [MetadataResponse] *)
Definition ser_metadata_response (a : metadata_response) : tree :=
  match a with
  | MRWithValues x => ser_variant (bs "WithValues") (ser_vec ser_entry_value x)
  | MRWithoutValues x => ser_variant (bs "WithoutValues") (ser_vec ser_astring x)
  end.
Definition de_metadata_response : tree -> option metadata_response :=
  de_enum [
    (bs "WithValues", true, c_newtype (de_vec_n 1 de_entry_value) MRWithValues);
    (bs "WithoutValues", true, c_newtype (de_vec_n 1 de_astring) MRWithoutValues)].

(** extensions/namespace.rs:91-98 [NamespaceResponseExtension] *)
Definition ser_namespace_ext (a : namespace_ext) : tree :=
  ser_struct [bs "key"; bs "values"]
    [ser_istring (ne_key a); ser_vec ser_istring (ne_values a)].
Definition de_namespace_ext : tree -> option namespace_ext :=
  de_struct [bs "key"; bs
    "values"] (x <== req de_istring ;; y <== req (de_vec_n 1 de_istring) ;; fin (mkNsExt x y)).

(** extensions/namespace.rs:70-80 [Namespace] *)
Definition ser_namespace (a : namespace) : tree :=
  ser_struct [bs "prefix"; bs "delimiter";
    bs "extensions"] [ser_istring (ns_prefix a); ser_opt ser_quoted_char (ns_delimiter a);
    ser_vec ser_namespace_ext (ns_extensions a)].
Definition de_namespace : tree -> option namespace :=
  de_struct [bs "prefix"; bs "delimiter";
    bs "extensions"] (x <== req de_istring ;; y <== opt de_quoted_char ;;
    z <== req (de_vec de_namespace_ext) ;; fin (mkNamespace x y z)).

(** ** search.rs *)

(** search.rs:16-171 [SearchKey] *)
Fixpoint ser_search_key (a : search_key) : tree :=
  match a with
  | KAnd x => ser_variant (bs "And") (ser_vec ser_search_key x)
  | KSequenceSet x => ser_variant (bs "SequenceSet") (ser_sequence_set x)
  | KAll => ser_unit (bs "All")
  | KAnswered => ser_unit (bs "Answered")
  | KBcc x => ser_variant (bs "Bcc") (ser_astring x)
  | KBefore x => ser_variant (bs "Before") (ser_naive_date x)
  | KBody x => ser_variant (bs "Body") (ser_astring x)
  | KCc x => ser_variant (bs "Cc") (ser_astring x)
  | KDeleted => ser_unit (bs "Deleted")
  | KDraft => ser_unit (bs "Draft")
  | KFlagged => ser_unit (bs "Flagged")
  | KFrom x => ser_variant (bs "From") (ser_astring x)
  | KHeader x y => ser_variant (bs "Header") (TSeq [ser_astring x; ser_astring y])
  | KKeyword x => ser_variant (bs "Keyword") (ser_atom x)
  | KLarger x => ser_variant (bs "Larger") (ser_u32 x)
  | KNew => ser_unit (bs "New")
  | KNot x => ser_variant (bs "Not") (ser_search_key x)
  | KOld => ser_unit (bs "Old")
  | KOn x => ser_variant (bs "On") (ser_naive_date x)
  | KOr x y => ser_variant (bs "Or") (TSeq [ser_search_key x; ser_search_key y])
  | KRecent => ser_unit (bs "Recent")
  | KSeen => ser_unit (bs "Seen")
  | KSentBefore x => ser_variant (bs "SentBefore") (ser_naive_date x)
  | KSentOn x => ser_variant (bs "SentOn") (ser_naive_date x)
  | KSentSince x => ser_variant (bs "SentSince") (ser_naive_date x)
  | KSince x => ser_variant (bs "Since") (ser_naive_date x)
  | KSmaller x => ser_variant (bs "Smaller") (ser_u32 x)
  | KSubject x => ser_variant (bs "Subject") (ser_astring x)
  | KText x => ser_variant (bs "Text") (ser_astring x)
  | KTo x => ser_variant (bs "To") (ser_astring x)
  | KUid x => ser_variant (bs "Uid") (ser_sequence_set x)
  | KUnanswered => ser_unit (bs "Unanswered")
  | KUndeleted => ser_unit (bs "Undeleted")
  | KUndraft => ser_unit (bs "Undraft")
  | KUnflagged => ser_unit (bs "Unflagged")
  | KUnkeyword x => ser_variant (bs "Unkeyword") (ser_atom x)
  | KUnseen => ser_unit (bs "Unseen")
  | KModSequence x y => ser_variant (bs "ModSequence") (ser_struct [bs "entry"; bs "modseq"]
      [ser_opt (ser_pair ser_attribute_flag ser_entry_type_req) x; ser_u64 y])
  end.
Fixpoint de_search_key_n (n : nat) (t : tree) : option search_key :=
  match n with
  | O => None
  | S n =>
  de_enum [
    (bs "And", true, c_newtype (de_vec_n 1 (de_search_key_n n)) KAnd);
    (bs "SequenceSet", true, c_newtype de_sequence_set KSequenceSet);
    (bs "All", true, c_unit KAll);
    (bs "Answered", true, c_unit KAnswered);
    (bs "Bcc", true, c_newtype de_astring KBcc);
    (bs "Before", true, c_newtype de_naive_date KBefore);
    (bs "Body", true, c_newtype de_astring KBody);
    (bs "Cc", true, c_newtype de_astring KCc);
    (bs "Deleted", true, c_unit KDeleted);
    (bs "Draft", true, c_unit KDraft);
    (bs "Flagged", true, c_unit KFlagged);
    (bs "From", true, c_newtype de_astring KFrom);
    (bs "Header", true, c_pair de_astring de_astring KHeader);
    (bs "Keyword", true, c_newtype de_atom KKeyword);
    (bs "Larger", true, c_newtype de_u32 KLarger);
    (bs "New", true, c_unit KNew);
    (bs "Not", true, c_newtype (de_search_key_n n) KNot);
    (bs "Old", true, c_unit KOld);
    (bs "On", true, c_newtype de_naive_date KOn);
    (bs "Or", true, c_pair (de_search_key_n n) (de_search_key_n n) KOr);
    (bs "Recent", true, c_unit KRecent);
    (bs "Seen", true, c_unit KSeen);
    (bs "SentBefore", true, c_newtype de_naive_date KSentBefore);
    (bs "SentOn", true, c_newtype de_naive_date KSentOn);
    (bs "SentSince", true, c_newtype de_naive_date KSentSince);
    (bs "Since", true, c_newtype de_naive_date KSince);
    (bs "Smaller", true, c_newtype de_u32 KSmaller);
    (bs "Subject", true, c_newtype de_astring KSubject);
    (bs "Text", true, c_newtype de_astring KText);
    (bs "To", true, c_newtype de_astring KTo);
    (bs "Uid", true, c_newtype de_sequence_set KUid);
    (bs "Unanswered", true, c_unit KUnanswered);
    (bs "Undeleted", true, c_unit KUndeleted);
    (bs "Undraft", true, c_unit KUndraft);
    (bs "Unflagged", true, c_unit KUnflagged);
    (bs "Unkeyword", true, c_newtype de_atom KUnkeyword);
    (bs "Unseen", true, c_unit KUnseen);
    (bs "ModSequence", ext_condstore_qresync, c_struct [bs "entry"; bs "modseq"]
      (x <== opt (de_pair de_attribute_flag de_entry_type_req) ;; y <== req de_u64 ;; fin
      (KModSequence x y)))] t
  end.
Definition de_search_key (t : tree) : option search_key := de_search_key_n (height t) t.

(** ** command.rs *)

(** command.rs:1857-1871 [SelectParameter] *)
Definition ser_select_parameter (a : select_parameter) : tree :=
  match a with
  | SPCondStore => ser_unit (bs "CondStore")
  | SPQResync x y z u => ser_variant (bs "QResync") (ser_struct [bs "uid_validity"; bs
      "mod_sequence_value"; bs "known_uids"; bs "seq_match_data"] [ser_nz32 x; ser_nz64 y;
      ser_opt ser_sequence_set z; ser_opt (ser_pair ser_sequence_set ser_sequence_set) u])
  end.
Definition de_select_parameter : tree -> option select_parameter :=
  de_enum [
    (bs "CondStore", true, c_unit SPCondStore);
    (bs "QResync", true, c_struct [bs "uid_validity"; bs "mod_sequence_value"; bs "known_uids"; bs
      "seq_match_data"] (x <== req de_nz32 ;; y <== req de_nz64 ;; z <== opt de_sequence_set ;;
      u <== opt (de_pair de_sequence_set de_sequence_set) ;; fin (SPQResync x y z u)))].

(** command.rs:1873-1881 [FetchModifier] *)
Definition ser_fetch_modifier (a : fetch_modifier) : tree :=
  match a with
  | FMChangedSince x => ser_variant (bs "ChangedSince") (ser_nz64 x)
  | FMVanished => ser_unit (bs "Vanished")
  end.
Definition de_fetch_modifier : tree -> option fetch_modifier :=
  de_enum [
    (bs "ChangedSince", true, c_newtype de_nz64 FMChangedSince);
    (bs "Vanished", true, c_unit FMVanished)].

(** command.rs:1884-1891 [StoreModifier] *)
Definition ser_store_modifier (a : store_modifier) : tree :=
  match a with
  | SMUnchangedSince x => ser_variant (bs "UnchangedSince") (ser_u64 x)
  end.
Definition de_store_modifier : tree -> option store_modifier :=
  de_enum [
    (bs "UnchangedSince", true, c_newtype de_u64 SMUnchangedSince)].

(** command.rs:72-1545 [CommandBody] *)
Definition ser_command_body (a : command_body) : tree :=
  match a with
  | CCapability => ser_unit (bs "Capability")
  | CNoop => ser_unit (bs "Noop")
  | CLogout => ser_unit (bs "Logout")
  | CStartTls => ser_unit (bs "StartTLS")
  | CAuthenticate x y => ser_variant (bs "Authenticate") (ser_struct [bs "mechanism"; bs
      "initial_response"] [ser_auth_mechanism x; ser_opt ser_bytes y])
  | CLogin x y => ser_variant (bs "Login") (ser_struct [bs "username"; bs "password"]
      [ser_astring x; ser_astring y])
  | CSelect x y => ser_variant (bs "Select") (ser_struct ([bs "mailbox"] ++ if_on
      ext_condstore_qresync [bs "parameters"]) ([ser_mailbox x] ++ if_on ext_condstore_qresync
      [ser_vec ser_select_parameter y]))
  | CUnselect => ser_unit (bs "Unselect")
  | CExamine x y => ser_variant (bs "Examine") (ser_struct ([bs "mailbox"] ++ if_on
      ext_condstore_qresync [bs "parameters"]) ([ser_mailbox x] ++ if_on ext_condstore_qresync
      [ser_vec ser_select_parameter y]))
  | CCreate x => ser_variant (bs "Create") (ser_struct [bs "mailbox"] [ser_mailbox x])
  | CDelete x => ser_variant (bs "Delete") (ser_struct [bs "mailbox"] [ser_mailbox x])
  | CRename x y => ser_variant (bs "Rename") (ser_struct [bs "from"; bs "to"] [ser_mailbox x;
      ser_mailbox y])
  | CSubscribe x => ser_variant (bs "Subscribe") (ser_struct [bs "mailbox"] [ser_mailbox x])
  | CUnsubscribe x => ser_variant (bs "Unsubscribe") (ser_struct [bs "mailbox"] [ser_mailbox x])
  | CList x y => ser_variant (bs "List") (ser_struct [bs "reference"; bs "mailbox_wildcard"]
      [ser_mailbox x; ser_list_mailbox y])
  | CLsub x y => ser_variant (bs "Lsub") (ser_struct [bs "reference"; bs "mailbox_wildcard"]
      [ser_mailbox x; ser_list_mailbox y])
  | CStatus x y => ser_variant (bs "Status") (ser_struct [bs "mailbox"; bs "item_names"]
      [ser_mailbox x; ser_vec ser_status_data_item_name y])
  | CAppend x y z u => ser_variant (bs "Append") (ser_struct [bs "mailbox"; bs "flags"; bs
      "date"; bs "message"] [ser_mailbox x; ser_vec ser_flag y; ser_opt ser_date_time z;
      ser_lit_or_lit8 u])
  | CCheck => ser_unit (bs "Check")
  | CClose => ser_unit (bs "Close")
  | CExpunge => ser_unit (bs "Expunge")
  | CExpungeUid x => ser_variant (bs "ExpungeUid") (ser_struct [bs "sequence_set"]
      [ser_sequence_set x])
  | CSearch x y z => ser_variant (bs "Search") (ser_struct [bs "charset"; bs "criteria"; bs
      "uid"] [ser_opt ser_charset x; ser_vec ser_search_key y; ser_bool z])
  | CSort x y z u => ser_variant (bs "Sort") (ser_struct [bs "sort_criteria"; bs "charset"; bs
      "search_criteria"; bs "uid"] [ser_vec ser_sort_criterion x; ser_charset y; ser_vec
      ser_search_key z; ser_bool u])
  | CThread x y z u => ser_variant (bs "Thread") (ser_struct [bs "algorithm"; bs "charset"; bs
      "search_criteria"; bs "uid"] [ser_threading_algorithm x; ser_charset y; ser_vec
      ser_search_key z; ser_bool u])
  | CFetch x y z u => ser_variant (bs "Fetch") (ser_struct ([bs "sequence_set"; bs
      "macro_or_item_names"; bs "uid"] ++ if_on ext_condstore_qresync [bs "modifiers"])
      ([ser_sequence_set x; ser_macro_or_items y; ser_bool z] ++ if_on ext_condstore_qresync
      [ser_vec ser_fetch_modifier u]))
  | CStore x y z u v w => ser_variant (bs "Store") (ser_struct ([bs "sequence_set"; bs "kind"; bs
      "response"; bs "flags"; bs "uid"] ++ if_on ext_condstore_qresync [bs "modifiers"])
      ([ser_sequence_set x; ser_store_type y; ser_store_response z; ser_vec ser_flag u;
      ser_bool v] ++ if_on ext_condstore_qresync [ser_vec ser_store_modifier w]))
  | CCopy x y z => ser_variant (bs "Copy") (ser_struct [bs "sequence_set"; bs "mailbox"; bs
      "uid"] [ser_sequence_set x; ser_mailbox y; ser_bool z])
  | CIdle => ser_unit (bs "Idle")
  | CEnable x => ser_variant (bs "Enable") (ser_struct [bs "capabilities"] [ser_vec
      ser_capability_enable x])
  | CCompress x => ser_variant (bs "Compress") (ser_struct [bs "algorithm"]
      [ser_compression_algorithm x])
  | CGetQuota x => ser_variant (bs "GetQuota") (ser_struct [bs "root"] [ser_astring x])
  | CGetQuotaRoot x => ser_variant (bs "GetQuotaRoot") (ser_struct [bs "mailbox"] [ser_mailbox
      x])
  | CSetQuota x y => ser_variant (bs "SetQuota") (ser_struct [bs "root"; bs "quotas"]
      [ser_astring x; ser_vec ser_quota_set y])
  | CMove x y z => ser_variant (bs "Move") (ser_struct [bs "sequence_set"; bs "mailbox"; bs
      "uid"] [ser_sequence_set x; ser_mailbox y; ser_bool z])
  | CId x => ser_variant (bs "Id") (ser_struct [bs "parameters"] [ser_opt (ser_vec (ser_pair
      ser_istring ser_nstring)) x])
  | CSetMetadata x y => ser_variant (bs "SetMetadata") (ser_struct [bs "mailbox"; bs
      "entry_values"] [ser_mailbox x; ser_vec ser_entry_value y])
  | CGetMetadata x y z => ser_variant (bs "GetMetadata") (ser_struct [bs "options"; bs "mailbox";
      bs "entries"] [ser_vec ser_get_metadata_option x; ser_mailbox y; ser_vec ser_astring z])
  | CNamespace => ser_unit (bs "Namespace")
  end.
Definition de_command_body : tree -> option command_body :=
  de_enum [
    (bs "Capability", true, c_unit CCapability);
    (bs "Noop", true, c_unit CNoop);
    (bs "Logout", true, c_unit CLogout);
    (bs "StartTLS", starttls, c_unit CStartTls);
    (bs "Authenticate", true, c_struct [bs "mechanism"; bs "initial_response"]
      (x <== req de_auth_mechanism ;; y <== opt de_bytes ;; fin (CAuthenticate x y)));
    (bs "Login", true, c_struct [bs "username"; bs "password"] (x <== req de_astring ;;
      y <== req de_astring ;; fin (CLogin x y)));
    (bs "Select", true, c_struct ([bs "mailbox"] ++ if_on ext_condstore_qresync [bs "parameters"])
      (x <== req de_mailbox ;;
      y <== only ext_condstore_qresync [] (req (de_vec de_select_parameter)) ;; fin (CSelect x
      y)));
    (bs "Unselect", true, c_unit CUnselect);
    (bs "Examine", true, c_struct ([bs "mailbox"] ++ if_on ext_condstore_qresync [bs "parameters"])
      (x <== req de_mailbox ;;
      y <== only ext_condstore_qresync [] (req (de_vec de_select_parameter)) ;; fin (CExamine x
      y)));
    (bs "Create", true, c_struct [bs "mailbox"] (x <== req de_mailbox ;; fin (CCreate x)));
    (bs "Delete", true, c_struct [bs "mailbox"] (x <== req de_mailbox ;; fin (CDelete x)));
    (bs "Rename", true, c_struct [bs "from"; bs "to"] (x <== req de_mailbox ;;
      y <== req de_mailbox ;; fin (CRename x y)));
    (bs "Subscribe", true, c_struct [bs "mailbox"] (x <== req de_mailbox ;; fin (CSubscribe x)));
    (bs "Unsubscribe", true, c_struct [bs "mailbox"] (x <== req de_mailbox ;; fin (CUnsubscribe
      x)));
    (bs "List", true, c_struct [bs "reference"; bs "mailbox_wildcard"] (x <== req de_mailbox ;;
      y <== req de_list_mailbox ;; fin (CList x y)));
    (bs "Lsub", true, c_struct [bs "reference"; bs "mailbox_wildcard"] (x <== req de_mailbox ;;
      y <== req de_list_mailbox ;; fin (CLsub x y)));
    (bs "Status", true, c_struct [bs "mailbox"; bs "item_names"] (x <== req de_mailbox ;;
      y <== req (de_vec de_status_data_item_name) ;; fin (CStatus x y)));
    (bs "Append", true, c_struct [bs "mailbox"; bs "flags"; bs "date"; bs "message"]
      (x <== req de_mailbox ;; y <== req (de_vec de_flag) ;; z <== opt de_date_time ;;
      u <== req de_lit_or_lit8 ;; fin (CAppend x y z u)));
    (bs "Check", true, c_unit CCheck);
    (bs "Close", true, c_unit CClose);
    (bs "Expunge", true, c_unit CExpunge);
    (bs "ExpungeUid", true, c_struct [bs "sequence_set"] (x <== req de_sequence_set ;; fin
      (CExpungeUid x)));
    (bs "Search", true, c_struct [bs "charset"; bs "criteria"; bs "uid"] (x <== opt de_charset ;;
      y <== req (de_vec_n 1 de_search_key) ;; z <== req de_bool ;; fin (CSearch x y z)));
    (bs "Sort", true, c_struct [bs "sort_criteria"; bs "charset"; bs "search_criteria"; bs "uid"]
      (x <== req (de_vec_n 1 de_sort_criterion) ;; y <== req de_charset ;;
      z <== req (de_vec_n 1 de_search_key) ;; u <== req de_bool ;; fin (CSort x y z u)));
    (bs "Thread", true, c_struct [bs "algorithm"; bs "charset"; bs "search_criteria"; bs "uid"]
      (x <== req de_threading_algorithm ;; y <== req de_charset ;;
      z <== req (de_vec_n 1 de_search_key) ;; u <== req de_bool ;; fin (CThread x y z u)));
    (bs "Fetch", true, c_struct ([bs "sequence_set"; bs "macro_or_item_names"; bs "uid"] ++ if_on
      ext_condstore_qresync [bs "modifiers"]) (x <== req de_sequence_set ;;
      y <== req de_macro_or_items ;; z <== req de_bool ;;
      u <== only ext_condstore_qresync [] (req (de_vec de_fetch_modifier)) ;; fin (CFetch x y z
      u)));
    (bs "Store", true, c_struct ([bs "sequence_set"; bs "kind"; bs "response"; bs "flags"; bs
      "uid"] ++ if_on ext_condstore_qresync [bs "modifiers"]) (x <== req de_sequence_set ;;
      y <== req de_store_type ;; z <== req de_store_response ;; u <== req (de_vec de_flag) ;;
      v <== req de_bool ;;
      w <== only ext_condstore_qresync [] (req (de_vec de_store_modifier)) ;; fin (CStore x y z
      u v w)));
    (bs "Copy", true, c_struct [bs "sequence_set"; bs "mailbox"; bs "uid"]
      (x <== req de_sequence_set ;; y <== req de_mailbox ;; z <== req de_bool ;; fin (CCopy x y
      z)));
    (bs "Idle", true, c_unit CIdle);
    (bs "Enable", true, c_struct [bs "capabilities"]
      (x <== req (de_vec_n 1 de_capability_enable) ;; fin (CEnable x)));
    (bs "Compress", true, c_struct [bs "algorithm"] (x <== req de_compression_algorithm ;; fin
      (CCompress x)));
    (bs "GetQuota", true, c_struct [bs "root"] (x <== req de_astring ;; fin (CGetQuota x)));
    (bs "GetQuotaRoot", true, c_struct [bs "mailbox"] (x <== req de_mailbox ;; fin (CGetQuotaRoot
      x)));
    (bs "SetQuota", true, c_struct [bs "root"; bs "quotas"] (x <== req de_astring ;;
      y <== req (de_vec de_quota_set) ;; fin (CSetQuota x y)));
    (bs "Move", true, c_struct [bs "sequence_set"; bs "mailbox"; bs "uid"]
      (x <== req de_sequence_set ;; y <== req de_mailbox ;; z <== req de_bool ;; fin (CMove x y
      z)));
    (bs "Id", ext_id, c_struct [bs "parameters"]
      (x <== opt (de_vec (de_pair de_istring de_nstring)) ;; fin (CId x)));
    (bs "SetMetadata", ext_metadata, c_struct [bs "mailbox"; bs "entry_values"]
      (x <== req de_mailbox ;; y <== req (de_vec_n 1 de_entry_value) ;; fin (CSetMetadata x
      y)));
    (bs "GetMetadata", ext_metadata, c_struct [bs "options"; bs "mailbox"; bs "entries"]
      (x <== req (de_vec de_get_metadata_option) ;; y <== req de_mailbox ;;
      z <== req (de_vec_n 1 de_astring) ;; fin (CGetMetadata x y z)));
    (bs "Namespace", ext_namespace, c_unit CNamespace)].

(** command.rs:40-48 [Command] *)
Definition ser_command (a : command) : tree :=
  ser_struct [bs "tag"; bs "body"] [ser_tag
    (cmd_tag a); ser_command_body (cmd_body a)].
Definition de_command : tree -> option command :=
  de_struct [bs "tag"; bs "body"]
    (x <== req de_tag ;; y <== req de_command_body ;; fin (mkCommand x y)).

(** ** response.rs *)

(** response.rs:1054-1138, 1287-1289 [Capability] *)
Definition ser_capability (a : capability) : tree :=
  match a with
  | CapImap4Rev1 => ser_unit (bs "Imap4Rev1")
  | CapAuth x => ser_variant (bs "Auth") (ser_auth_mechanism x)
  | CapLoginDisabled => ser_unit (bs "LoginDisabled")
  | CapStartTls => ser_unit (bs "StartTls")
  | CapIdle => ser_unit (bs "Idle")
  | CapMailboxReferrals => ser_unit (bs "MailboxReferrals")
  | CapLoginReferrals => ser_unit (bs "LoginReferrals")
  | CapSaslIr => ser_unit (bs "SaslIr")
  | CapEnable => ser_unit (bs "Enable")
  | CapCompress x => ser_variant (bs "Compress") (ser_struct [bs "algorithm"]
      [ser_compression_algorithm x])
  | CapQuota => ser_unit (bs "Quota")
  | CapQuotaRes x => ser_variant (bs "QuotaRes") (ser_resource x)
  | CapQuotaSet => ser_unit (bs "QuotaSet")
  | CapLiteralPlus => ser_unit (bs "LiteralPlus")
  | CapLiteralMinus => ser_unit (bs "LiteralMinus")
  | CapMove => ser_unit (bs "Move")
  | CapId => ser_unit (bs "Id")
  | CapUnselect => ser_unit (bs "Unselect")
  | CapSort x => ser_variant (bs "Sort") (ser_opt ser_sort_algorithm x)
  | CapThread x => ser_variant (bs "Thread") (ser_threading_algorithm x)
  | CapMetadata => ser_unit (bs "Metadata")
  | CapMetadataServer => ser_unit (bs "MetadataServer")
  | CapBinary => ser_unit (bs "Binary")
  | CapUidPlus => ser_unit (bs "UidPlus")
  | CapCondStore => ser_unit (bs "CondStore")
  | CapQResync => ser_unit (bs "QResync")
  | CapNamespace => ser_unit (bs "Namespace")
  | CapUtf8 x => ser_variant (bs "Utf8") (ser_utf8_kind x)
  | CapOther x => ser_variant (bs "Other") (ser_atom x)
  end.
Definition de_capability : tree -> option capability :=
  de_enum [
    (bs "Imap4Rev1", true, c_unit CapImap4Rev1);
    (bs "Auth", true, c_newtype de_auth_mechanism CapAuth);
    (bs "LoginDisabled", true, c_unit CapLoginDisabled);
    (bs "StartTls", starttls, c_unit CapStartTls);
    (bs "Idle", true, c_unit CapIdle);
    (bs "MailboxReferrals", ext_mailbox_referrals, c_unit CapMailboxReferrals);
    (bs "LoginReferrals", ext_login_referrals, c_unit CapLoginReferrals);
    (bs "SaslIr", true, c_unit CapSaslIr);
    (bs "Enable", true, c_unit CapEnable);
    (bs "Compress", true, c_struct [bs "algorithm"] (x <== req de_compression_algorithm ;; fin
      (CapCompress x)));
    (bs "Quota", true, c_unit CapQuota);
    (bs "QuotaRes", true, c_newtype de_resource CapQuotaRes);
    (bs "QuotaSet", true, c_unit CapQuotaSet);
    (bs "LiteralPlus", true, c_unit CapLiteralPlus);
    (bs "LiteralMinus", true, c_unit CapLiteralMinus);
    (bs "Move", true, c_unit CapMove);
    (bs "Id", ext_id, c_unit CapId);
    (bs "Unselect", true, c_unit CapUnselect);
    (bs "Sort", true, c_newopt de_sort_algorithm CapSort);
    (bs "Thread", true, c_newtype de_threading_algorithm CapThread);
    (bs "Metadata", ext_metadata, c_unit CapMetadata);
    (bs "MetadataServer", ext_metadata, c_unit CapMetadataServer);
    (bs "Binary", true, c_unit CapBinary);
    (bs "UidPlus", true, c_unit CapUidPlus);
    (bs "CondStore", ext_condstore_qresync, c_unit CapCondStore);
    (bs "QResync", ext_condstore_qresync, c_unit CapQResync);
    (bs "Namespace", ext_namespace, c_unit CapNamespace);
    (bs "Utf8", ext_utf8, c_newtype de_utf8_kind CapUtf8);
    (bs "Other", true, c_newtype de_atom CapOther)].

(** response.rs:782-1000, 1011-1013 [Code] *)
Definition ser_code (a : code) : tree :=
  match a with
  | CdAlert => ser_unit (bs "Alert")
  | CdBadCharset x => ser_variant (bs "BadCharset") (ser_struct [bs "allowed"] [ser_vec
      ser_charset x])
  | CdCapability x => ser_variant (bs "Capability") (ser_vec ser_capability x)
  | CdParse => ser_unit (bs "Parse")
  | CdPermanentFlags x => ser_variant (bs "PermanentFlags") (ser_vec ser_flag_perm x)
  | CdReadOnly => ser_unit (bs "ReadOnly")
  | CdReadWrite => ser_unit (bs "ReadWrite")
  | CdTryCreate => ser_unit (bs "TryCreate")
  | CdUidNext x => ser_variant (bs "UidNext") (ser_nz32 x)
  | CdUidValidity x => ser_variant (bs "UidValidity") (ser_nz32 x)
  | CdUnseen x => ser_variant (bs "Unseen") (ser_nz32 x)
  | CdReferral x => ser_variant (bs "Referral") (ser_string x)
  | CdCompressionActive => ser_unit (bs "CompressionActive")
  | CdOverQuota => ser_unit (bs "OverQuota")
  | CdTooBig => ser_unit (bs "TooBig")
  | CdMetadata x => ser_variant (bs "Metadata") (ser_metadata_code x)
  | CdUnknownCte => ser_unit (bs "UnknownCte")
  | CdAppendUid x y => ser_variant (bs "AppendUid") (ser_struct [bs "uid_validity"; bs "uid"]
      [ser_nz32 x; ser_nz32 y])
  | CdCopyUid x y z => ser_variant (bs "CopyUid") (ser_struct [bs "uid_validity"; bs "source"; bs
      "destination"] [ser_nz32 x; ser_uid_set y; ser_uid_set z])
  | CdUidNotSticky => ser_unit (bs "UidNotSticky")
  | CdHighestModSeq x => ser_variant (bs "HighestModSeq") (ser_nz64 x)
  | CdModified x => ser_variant (bs "Modified") (ser_sequence_set x)
  | CdNoModSeq => ser_unit (bs "NoModSeq")
  | CdClosed => ser_unit (bs "Closed")
  | CdOther x => ser_variant (bs "Other") (ser_bytes x)
  end.
Definition de_code : tree -> option code :=
  de_enum [
    (bs "Alert", true, c_unit CdAlert);
    (bs "BadCharset", true, c_struct [bs "allowed"] (x <== req (de_vec de_charset) ;; fin
      (CdBadCharset x)));
    (bs "Capability", true, c_newtype (de_vec_n 1 de_capability) CdCapability);
    (bs "Parse", true, c_unit CdParse);
    (bs "PermanentFlags", true, c_newtype (de_vec de_flag_perm) CdPermanentFlags);
    (bs "ReadOnly", true, c_unit CdReadOnly);
    (bs "ReadWrite", true, c_unit CdReadWrite);
    (bs "TryCreate", true, c_unit CdTryCreate);
    (bs "UidNext", true, c_newtype de_nz32 CdUidNext);
    (bs "UidValidity", true, c_newtype de_nz32 CdUidValidity);
    (bs "Unseen", true, c_newtype de_nz32 CdUnseen);
    (bs "Referral", (ext_mailbox_referrals || ext_login_referrals), c_newtype de_string CdReferral);
    (bs "CompressionActive", true, c_unit CdCompressionActive);
    (bs "OverQuota", true, c_unit CdOverQuota);
    (bs "TooBig", true, c_unit CdTooBig);
    (bs "Metadata", ext_metadata, c_newtype de_metadata_code CdMetadata);
    (bs "UnknownCte", true, c_unit CdUnknownCte);
    (bs "AppendUid", true, c_struct [bs "uid_validity"; bs "uid"] (x <== req de_nz32 ;;
      y <== req de_nz32 ;; fin (CdAppendUid x y)));
    (bs "CopyUid", true, c_struct [bs "uid_validity"; bs "source"; bs "destination"]
      (x <== req de_nz32 ;; y <== req de_uid_set ;; z <== req de_uid_set ;; fin (CdCopyUid x y
      z)));
    (bs "UidNotSticky", true, c_unit CdUidNotSticky);
    (bs "HighestModSeq", ext_condstore_qresync, c_newtype de_nz64 CdHighestModSeq);
    (bs "Modified", ext_condstore_qresync, c_newtype de_sequence_set CdModified);
    (bs "NoModSeq", ext_condstore_qresync, c_unit CdNoModSeq);
    (bs "Closed", ext_condstore_qresync, c_unit CdClosed);
    (bs "Other", true, c_newtype de_bytes CdOther)].

(** response.rs:99-112 [GreetingKind] *)
Definition ser_greeting_kind (a : greeting_kind) : tree :=
  match a with
  | GKOk => ser_name (bs "Ok")
  | GKPreAuth => ser_name (bs "PreAuth")
  | GKBye => ser_name (bs "Bye")
  end.
Definition de_greeting_kind : tree -> option greeting_kind :=
  de_names [
    (bs "Ok", true, GKOk);
    (bs "PreAuth", true, GKPreAuth);
    (bs "Bye", true, GKBye)].

(** response.rs:51-57 [Greeting] *)
Definition ser_greeting (a : greeting) : tree :=
  ser_struct [bs "kind"; bs "code"; bs "text"]
    [ser_greeting_kind (gr_kind a); ser_opt ser_code (gr_code a); ser_text (gr_text a)].
Definition de_greeting : tree -> option greeting :=
  de_struct [bs "kind"; bs "code"; bs
    "text"] (x <== req de_greeting_kind ;; y <== opt de_code ;; z <== req de_text ;; fin
    (mkGreeting x y z)).

(** response.rs:167-182 [StatusKind] *)
Definition ser_status_kind (a : status_kind) : tree :=
  match a with
  | SKOk => ser_name (bs "Ok")
  | SKNo => ser_name (bs "No")
  | SKBad => ser_name (bs "Bad")
  end.
Definition de_status_kind : tree -> option status_kind :=
  de_names [
    (bs "Ok", true, SKOk);
    (bs "No", true, SKNo);
    (bs "Bad", true, SKBad)].

(** response.rs:152-164 [StatusBody] *)
Definition ser_status_body (a : status_body) : tree :=
  ser_struct [bs "kind"; bs "code"; bs
    "text"] [ser_status_kind (sb_kind a); ser_opt ser_code (sb_code a); ser_text (sb_text a)].
Definition de_status_body : tree -> option status_body :=
  de_struct [bs "kind"; bs "code"; bs
    "text"] (x <== req de_status_kind ;; y <== opt de_code ;; z <== req de_text ;; fin
    (mkStatusBody x y z)).

(** response.rs:187-196 [Tagged], :220-224 [Bye], :139-149 [Status]; [Tagged] and [Bye] are
    inlined into [StTagged] and [StBye]. *)
Definition ser_status (a : status) : tree :=
  match a with
  | StUntagged b => ser_variant (bs "Untagged") (ser_status_body b)
  | StTagged tag b => ser_variant (bs "Tagged") (ser_struct [bs "tag"; bs "body"]
      [ser_tag tag; ser_status_body b])
  | StBye c t => ser_variant (bs "Bye") (ser_struct [bs "code"; bs "text"]
      [ser_opt ser_code c; ser_text t])
  end.
Definition de_status : tree -> option status :=
  de_enum [
    (bs "Untagged", true, c_newtype de_status_body StUntagged);
    (bs "Tagged", true, c_struct [bs "tag"; bs "body"]
      (x <== req de_tag ;; y <== req de_status_body ;; fin (StTagged x y)));
    (bs "Bye", true, c_struct [bs "code"; bs "text"]
      (x <== opt de_code ;; y <== req de_text ;; fin (StBye x y)))].

(** response.rs:317-546 [Data] *)
Definition ser_data (a : data) : tree :=
  match a with
  | DCapability x => ser_variant (bs "Capability") (ser_vec ser_capability x)
  | DList x y z => ser_variant (bs "List") (ser_struct [bs "items"; bs "delimiter"; bs "mailbox"]
      [ser_vec ser_flag_name_attribute x; ser_opt ser_quoted_char y; ser_mailbox z])
  | DLsub x y z => ser_variant (bs "Lsub") (ser_struct [bs "items"; bs "delimiter"; bs "mailbox"]
      [ser_vec ser_flag_name_attribute x; ser_opt ser_quoted_char y; ser_mailbox z])
  | DStatus x y => ser_variant (bs "Status") (ser_struct [bs "mailbox"; bs "items"] [ser_mailbox
      x; ser_vec ser_status_data_item y])
  | DSearch l modseq =>
    ser_variant (bs "Search")
      (if ext_condstore_qresync then TSeq [ser_vec ser_nz32 l; ser_opt ser_nz64 modseq]
       else ser_vec ser_nz32 l)
  | DSort l modseq =>
    ser_variant (bs "Sort")
      (if ext_condstore_qresync then TSeq [ser_vec ser_nz32 l; ser_opt ser_nz64 modseq]
       else ser_vec ser_nz32 l)
  | DThread x => ser_variant (bs "Thread") (ser_vec ser_thread x)
  | DFlags x => ser_variant (bs "Flags") (ser_vec ser_flag x)
  | DExists x => ser_variant (bs "Exists") (ser_u32 x)
  | DRecent x => ser_variant (bs "Recent") (ser_u32 x)
  | DExpunge x => ser_variant (bs "Expunge") (ser_nz32 x)
  | DFetch x y => ser_variant (bs "Fetch") (ser_struct [bs "seq"; bs "items"] [ser_nz32 x;
      ser_vec ser_message_data_item y])
  | DEnabled x => ser_variant (bs "Enabled") (ser_struct [bs "capabilities"] [ser_vec
      ser_capability_enable x])
  | DQuota x y => ser_variant (bs "Quota") (ser_struct [bs "root"; bs "quotas"] [ser_astring x;
      ser_vec ser_quota_get y])
  | DQuotaRoot x y => ser_variant (bs "QuotaRoot") (ser_struct [bs "mailbox"; bs "roots"]
      [ser_mailbox x; ser_vec ser_astring y])
  | DId x => ser_variant (bs "Id") (ser_struct [bs "parameters"] [ser_opt (ser_vec (ser_pair
      ser_istring ser_nstring)) x])
  | DMetadata x y => ser_variant (bs "Metadata") (ser_struct [bs "mailbox"; bs "items"]
      [ser_mailbox x; ser_metadata_response y])
  | DVanished x y => ser_variant (bs "Vanished") (ser_struct [bs "earlier"; bs "known_uids"]
      [ser_bool x; ser_sequence_set y])
  | DNamespace x y z => ser_variant (bs "Namespace") (ser_struct [bs "personal"; bs "other"; bs
      "shared"] [ser_vec ser_namespace x; ser_vec ser_namespace y; ser_vec ser_namespace z])
  end.
Definition de_data : tree -> option data :=
  de_enum [
    (bs "Capability", true, c_newtype (de_vec_n 1 de_capability) DCapability);
    (bs "List", true, c_struct [bs "items"; bs "delimiter"; bs "mailbox"]
      (x <== req (de_vec de_flag_name_attribute) ;; y <== opt de_quoted_char ;;
      z <== req de_mailbox ;; fin (DList x y z)));
    (bs "Lsub", true, c_struct [bs "items"; bs "delimiter"; bs "mailbox"]
      (x <== req (de_vec de_flag_name_attribute) ;; y <== opt de_quoted_char ;;
      z <== req de_mailbox ;; fin (DLsub x y z)));
    (bs "Status", true, c_struct [bs "mailbox"; bs "items"] (x <== req de_mailbox ;;
      y <== req (de_vec de_status_data_item) ;; fin (DStatus x y)));
    (bs "Search", true, if ext_condstore_qresync
      then c_pair (de_vec de_nz32) (de_opt de_nz64) DSearch
      else c_newtype (de_vec de_nz32) (fun l => DSearch l None));
    (bs "Sort", true, if ext_condstore_qresync
      then c_pair (de_vec de_nz32) (de_opt de_nz64) DSort
      else c_newtype (de_vec de_nz32) (fun l => DSort l None));
    (bs "Thread", true, c_newtype (de_vec de_thread) DThread);
    (bs "Flags", true, c_newtype (de_vec de_flag) DFlags);
    (bs "Exists", true, c_newtype de_u32 DExists);
    (bs "Recent", true, c_newtype de_u32 DRecent);
    (bs "Expunge", true, c_newtype de_nz32 DExpunge);
    (bs "Fetch", true, c_struct [bs "seq"; bs "items"] (x <== req de_nz32 ;;
      y <== req (de_vec_n 1 de_message_data_item) ;; fin (DFetch x y)));
    (bs "Enabled", true, c_struct [bs "capabilities"] (x <== req (de_vec de_capability_enable) ;;
      fin (DEnabled x)));
    (bs "Quota", true, c_struct [bs "root"; bs "quotas"] (x <== req de_astring ;;
      y <== req (de_vec_n 1 de_quota_get) ;; fin (DQuota x y)));
    (bs "QuotaRoot", true, c_struct [bs "mailbox"; bs "roots"] (x <== req de_mailbox ;;
      y <== req (de_vec de_astring) ;; fin (DQuotaRoot x y)));
    (bs "Id", ext_id, c_struct [bs "parameters"]
      (x <== opt (de_vec (de_pair de_istring de_nstring)) ;; fin (DId x)));
    (bs "Metadata", ext_metadata, c_struct [bs "mailbox"; bs "items"] (x <== req de_mailbox ;;
      y <== req de_metadata_response ;; fin (DMetadata x y)));
    (bs "Vanished", ext_condstore_qresync, c_struct [bs "earlier"; bs "known_uids"]
      (x <== req de_bool ;; y <== req de_sequence_set ;; fin (DVanished x y)));
    (bs "Namespace", ext_namespace, c_struct [bs "personal"; bs "other"; bs "shared"]
      (x <== req (de_vec de_namespace) ;; y <== req (de_vec de_namespace) ;;
      z <== req (de_vec de_namespace) ;; fin (DNamespace x y z)))].

(** response.rs:706-776 [CommandContinuationRequestBasic]: read as the shadow struct and passed
    to [new]; :680-704 [CommandContinuationRequest] *)
Definition ser_continuation (a : continuation) : tree :=
  match a with
  | CRBasic c t => ser_variant (bs "Basic") (ser_struct [bs "code"; bs "text"]
      [ser_opt ser_code c; ser_text t])
  | CRBase64 d => ser_variant (bs "Base64") (ser_bytes d)
  end.
Definition de_basic (t : tree) : option (option code * bytes) :=
  match de_struct [bs "code"; bs "text"]
          (x <== opt de_code ;; y <== req de_text ;; fin (x, y)) t with
  | Some (None, text) =>
    if starts_with (bs "[") text then None
    else match b64_decode text with Some _ => None | None => Some (None, text) end
  | r => r
  end.
Definition de_continuation : tree -> option continuation :=
  de_enum [
    (bs "Basic", true, c_newtype de_basic (fun p => CRBasic (fst p) (snd p)));
    (bs "Base64", true, c_newtype de_bytes CRBase64)].

(** response.rs:118-128 [Response] *)
Definition ser_response (a : response) : tree :=
  match a with
  | RContinue x => ser_variant (bs "CommandContinuationRequest") (ser_continuation x)
  | RData x => ser_variant (bs "Data") (ser_data x)
  | RStatus x => ser_variant (bs "Status") (ser_status x)
  end.
Definition de_response : tree -> option response :=
  de_enum [
    (bs "CommandContinuationRequest", true, c_newtype de_continuation RContinue);
    (bs "Data", true, c_newtype de_data RData);
    (bs "Status", true, c_newtype de_status RStatus)].

End SerdeTypes.

(** state.rs:60-103 [State] *)
Inductive state :=
| StGreeting | StNotAuthenticated | StAuthenticated | StSelected (m : mailbox) | StLogout
| StIdleAuthenticated (tag : bytes) | StIdleSelected (tag : bytes) (m : mailbox).
Definition ser_state (a : state) : tree :=
  match a with
  | StGreeting => ser_unit (bs "Greeting")
  | StNotAuthenticated => ser_unit (bs "NotAuthenticated")
  | StAuthenticated => ser_unit (bs "Authenticated")
  | StSelected x => ser_variant (bs "Selected") (ser_mailbox x)
  | StLogout => ser_unit (bs "Logout")
  | StIdleAuthenticated x => ser_variant (bs "IdleAuthenticated") (ser_tag x)
  | StIdleSelected x y => ser_variant (bs "IdleSelected") (TSeq [ser_tag x; ser_mailbox y])
  end.
Definition de_state {F : features} : tree -> option state :=
  de_enum [
    (bs "Greeting", true, c_unit StGreeting);
    (bs "NotAuthenticated", true, c_unit StNotAuthenticated);
    (bs "Authenticated", true, c_unit StAuthenticated);
    (bs "Selected", true, c_newtype de_mailbox StSelected);
    (bs "Logout", true, c_unit StLogout);
    (bs "IdleAuthenticated", true, c_newtype de_tag StIdleAuthenticated);
    (bs "IdleSelected", true, c_pair de_tag de_mailbox StIdleSelected)].
