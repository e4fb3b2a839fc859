(** Validators, [Display] and [From]/[TryFrom] conversions of imap-types. *)

From Verif Require Import Bytes Features Nom Types Utf8.

(** ** Validators (core.rs, mailbox.rs). [true] is [Ok(())]. *)

(* core.rs:123 Atom::validate *)
Definition atom_ok (s : bytes) : bool :=
  match s with [] => false | _ => forallb is_atom_char s end.
(* core.rs:273 AtomExt::validate *)
Definition atom_ext_ok (s : bytes) : bool :=
  match s with [] => false | _ => forallb is_astring_char s end.
(* core.rs:567 Literal::validate *)
Definition literal_ok (s : bytes) : bool := forallb is_char8 s.
(* core.rs:772 Quoted::validate *)
Definition quoted_ok (s : bytes) : bool := forallb is_text_char s.
(* core.rs:1070 Tag::validate *)
Definition is_tag_char (b : byte) : bool := is_astring_char b && negb (beq b "+"%byte).
Definition tag_ok (s : bytes) : bool :=
  match s with [] => false | _ => forallb is_tag_char s end.
(* core.rs:1249 Text::validate *)
Definition text_ok (s : bytes) : bool :=
  match s with [] => false | _ => forallb is_text_char s end.
(* core.rs:1363 QuotedChar::validate, on a char that fits a byte *)
Definition quoted_char_ok (b : byte) : bool :=
  N.leb (bN b) 0x7f &&
  (is_any_text_char_except_quoted_specials b || beq b bBS || beq b bDQ).
(* mailbox.rs ListCharString::validate *)
Definition list_char_string_ok (s : bytes) : bool :=
  match s with [] => false | _ => forallb is_list_char s end.
(* mailbox.rs:205-211 MailboxOther::validate *)
Definition mailbox_other_ok (s : bytes) : bool := negb (eqi s (bs "inbox")).

(** core.rs [AsRef<[u8]>] for IString / AString *)
Definition istring_bytes (s : istring) : bytes :=
  match s with IQuoted s => s | IQuotedUtf8 s => s | ILiteral l => lit_data l end.
Definition astring_bytes (a : astring) : bytes :=
  match a with AAtom s => s | AString s => istring_bytes s end.

(** mailbox.rs:186-193 [From<AString> for Mailbox]; [None] is the panic of the [unwrap]. *)
Definition mailbox_from (a : astring) : option mailbox :=
  if utf8_ok (astring_bytes a) && eqi (astring_bytes a) (bs "inbox") then Some MInbox
  else if mailbox_other_ok (astring_bytes a) then Some (MOther a) else None.

(** ** auth.rs:147-193 *)
Definition auth_mechanism_from (a : atom_t) : auth_mechanism :=
  let u := uppers a in
  if beqs u (bs "PLAIN") then AMPlain
  else if beqs u (bs "LOGIN") then AMLogin
  else if beqs u (bs "OAUTHBEARER") then AMOAuthBearer
  else if beqs u (bs "XOAUTH2") then AMXOAuth2
  else if beqs u (bs "SCRAM-SHA-1") then AMScramSha1
  else if beqs u (bs "SCRAM-SHA-1-PLUS") then AMScramSha1Plus
  else if beqs u (bs "SCRAM-SHA-256") then AMScramSha256
  else if beqs u (bs "SCRAM-SHA-256-PLUS") then AMScramSha256Plus
  else AMOther a.
Definition auth_mechanism_str (m : auth_mechanism) : bytes :=
  match m with
  | AMPlain => bs "PLAIN"
  | AMLogin => bs "LOGIN"
  | AMOAuthBearer => bs "OAUTHBEARER"
  | AMXOAuth2 => bs "XOAUTH2"
  | AMScramSha1 => bs "SCRAM-SHA-1"
  | AMScramSha1Plus => bs "SCRAM-SHA-1-PLUS"
  | AMScramSha256 => bs "SCRAM-SHA-256"
  | AMScramSha256Plus => bs "SCRAM-SHA-256-PLUS"
  | AMScramSha3_512 => bs "SCRAM-SHA3-512"
  | AMScramSha3_512Plus => bs "SCRAM-SHA3-512-PLUS"
  | AMOther a => a
  end.

(** ** flag.rs *)
(* flag.rs:53-62 Flag::system *)
Definition flag_system (a : atom_t) : flag :=
  let l := lowers a in
  if beqs l (bs "answered") then FAnswered
  else if beqs l (bs "deleted") then FDeleted
  else if beqs l (bs "draft") then FDraft
  else if beqs l (bs "flagged") then FFlagged
  else if beqs l (bs "seen") then FSeen
  else FExtension a.
(* flag.rs:81-93 Display *)
Definition flag_str (f : flag) : bytes :=
  match f with
  | FAnswered => bs "\Answered"
  | FDeleted => bs "\Deleted"
  | FDraft => bs "\Draft"
  | FFlagged => bs "\Flagged"
  | FSeen => bs "\Seen"
  | FExtension a => bBS :: a
  | FKeyword a => a
  end.
(* flag.rs:181-191 From<Atom> for FlagNameAttribute *)
Definition flag_name_attribute_from (a : atom_t) : flag_name_attribute :=
  let l := lowers a in
  if beqs l (bs "noinferiors") then FNNoinferiors
  else if beqs l (bs "noselect") then FNNoselect
  else if beqs l (bs "marked") then FNMarked
  else if beqs l (bs "unmarked") then FNUnmarked
  else FNExtension a.
(* flag.rs:193-203 Display *)
Definition flag_name_attribute_str (f : flag_name_attribute) : bytes :=
  match f with
  | FNNoinferiors => bs "\Noinferiors"
  | FNNoselect => bs "\Noselect"
  | FNMarked => bs "\Marked"
  | FNUnmarked => bs "\Unmarked"
  | FNExtension a => bBS :: a
  end.

(** ** fetch.rs:51-59 Display for Macro *)
Definition macro_str (m : macro) : bytes :=
  match m with MacroAll => bs "ALL" | MacroFast => bs "FAST" | MacroFull => bs "FULL" end.

(** ** extensions *)
(* compress.rs:45-86 *)
Definition compression_str (a : compression_algorithm) : bytes :=
  match a with Deflate => bs "DEFLATE" end.
Definition compression_try_from (a : atom_t) : option compression_algorithm :=
  if beqs (lowers a) (bs "deflate") then Some Deflate else None.

(* condstore_qresync.rs:24-67; the two-character prefix is backslash backslash *)
Definition attribute_flag_system (a : atom_t) : attribute_flag :=
  let l := lowers a in
  if beqs l (bs "answered") then AFAnswered
  else if beqs l (bs "flagged") then AFFlagged
  else if beqs l (bs "deleted") then AFDeleted
  else if beqs l (bs "seen") then AFSeen
  else if beqs l (bs "draft") then AFDraft
  else AFExtension a.
Definition attribute_flag_str (f : attribute_flag) : bytes :=
  match f with
  | AFAnswered => bs "\\Answered"
  | AFFlagged => bs "\\Flagged"
  | AFDeleted => bs "\\Deleted"
  | AFSeen => bs "\\Seen"
  | AFDraft => bs "\\Draft"
  | AFKeyword a => a
  | AFExtension a => bBS :: bBS :: a
  end.
(* condstore_qresync.rs:81-89 *)
Definition entry_type_req_str (e : entry_type_req) : bytes :=
  match e with ETPrivate => bs "priv" | ETShared => bs "shared" | ETAll => bs "all" end.

(* utf8.rs:22-29 *)
Definition utf8_kind_str (k : utf8_kind) : bytes :=
  match k with Utf8Accept => bs "ACCEPT" | Utf8Only => bs "ONLY" end.

(* enable.rs:64-96 *)
Definition capability_enable_from `{features} (a : atom_t) : capability_enable :=
  let l := lowers a in
  if ext_condstore_qresync && beqs l (bs "condstore") then CECondStore
  else if ext_metadata && beqs l (bs "metadata") then CEMetadata
  else if ext_metadata && beqs l (bs "metadata-server") then CEMetadataServer
  else if ext_utf8 && beqs l (bs "utf8=accept") then CEUtf8 Utf8Accept
  else if ext_utf8 && beqs l (bs "utf8=only") then CEUtf8 Utf8Only
  else CEOther a.
Definition capability_enable_str (c : capability_enable) : bytes :=
  match c with
  | CECondStore => bs "CONDSTORE"
  | CEMetadata => bs "METADATA"
  | CEMetadataServer => bs "METADATA-SERVER"
  | CEUtf8 k => bs "UTF8=" ++ utf8_kind_str k
  | CEOther a => a
  end.

(* quota.rs:197-219 *)
Definition resource_from (a : atom_t) : resource :=
  let u := uppers a in
  if beqs u (bs "STORAGE") then RStorage
  else if beqs u (bs "MESSAGE") then RMessage
  else if beqs u (bs "MAILBOX") then RMailbox
  else if beqs u (bs "ANNOTATION-STORAGE") then RAnnotationStorage
  else ROther a.
Definition resource_str (r : resource) : bytes :=
  match r with
  | RStorage => bs "STORAGE"
  | RMessage => bs "MESSAGE"
  | RMailbox => bs "MAILBOX"
  | RAnnotationStorage => bs "ANNOTATION-STORAGE"
  | ROther a => a
  end.

(* sort.rs:21-37, 78-93 *)
Definition sort_algorithm_from (a : atom_t) : sort_algorithm :=
  if beqs (lowers a) (bs "display") then SADisplay else SAOther a.
Definition sort_algorithm_str (a : sort_algorithm) : bytes :=
  match a with SADisplay => bs "DISPLAY" | SAOther a => a end.
Definition sort_key_str (k : sort_key) : bytes :=
  match k with
  | SKArrival => bs "ARRIVAL"
  | SKCc => bs "CC"
  | SKDate => bs "DATE"
  | SKFrom => bs "FROM"
  | SKSize => bs "SIZE"
  | SKSubject => bs "SUBJECT"
  | SKTo => bs "TO"
  | SKDisplayFrom => bs "DISPLAYFROM"
  | SKDisplayTo => bs "DISPLAYTO"
  end.

(* thread.rs:148-166 *)
Definition threading_algorithm_from (a : atom_t) : threading_algorithm :=
  let l := lowers a in
  if beqs l (bs "orderedsubject") then TAOrderedSubject
  else if beqs l (bs "references") then TAReferences
  else TAOther a.
Definition threading_algorithm_str (a : threading_algorithm) : bytes :=
  match a with
  | TAOrderedSubject => bs "ORDEREDSUBJECT"
  | TAReferences => bs "REFERENCES"
  | TAOther a => a
  end.

(** ** response.rs: Capability *)

(** [str::split_once(pattern)] for a one-byte and for a general pattern. *)
Fixpoint split_once1 (c : byte) (s : bytes) : option (bytes * bytes) :=
  match s with
  | [] => None
  | x :: s' =>
    if beq x c then Some ([], s')
    else match split_once1 c s' with
         | Some (l, r) => Some (x :: l, r)
         | None => None
         end
  end.
Fixpoint split_once (p s : bytes) : option (bytes * bytes) :=
  if starts_with p s then Some ([], skipn (length p) s)
  else match s with
       | [] => None
       | x :: s' =>
         match split_once p s' with
         | Some (l, r) => Some (x :: l, r)
         | None => None
         end
       end.

(* response.rs:1124-1169 Display *)
Definition capability_str (c : capability) : bytes :=
  match c with
  | CapImap4Rev1 => bs "IMAP4REV1"
  | CapAuth m => bs "AUTH=" ++ auth_mechanism_str m
  | CapLoginDisabled => bs "LOGINDISABLED"
  | CapStartTls => bs "STARTTLS"
  | CapMailboxReferrals => bs "MAILBOX-REFERRALS"
  | CapLoginReferrals => bs "LOGIN-REFERRALS"
  | CapSaslIr => bs "SASL-IR"
  | CapIdle => bs "IDLE"
  | CapEnable => bs "ENABLE"
  | CapCompress a => bs "COMPRESS=" ++ compression_str a
  | CapQuota => bs "QUOTA"
  | CapQuotaRes r => bs "QUOTA=RES-" ++ resource_str r
  | CapQuotaSet => bs "QUOTASET"
  | CapLiteralPlus => bs "LITERAL+"
  | CapLiteralMinus => bs "LITERAL-"
  | CapMove => bs "MOVE"
  | CapId => bs "ID"
  | CapUnselect => bs "UNSELECT"
  | CapSort None => bs "SORT"
  | CapSort (Some a) => bs "SORT=" ++ sort_algorithm_str a
  | CapThread a => bs "THREAD=" ++ threading_algorithm_str a
  | CapMetadata => bs "METADATA"
  | CapMetadataServer => bs "METADATA-SERVER"
  | CapBinary => bs "BINARY"
  | CapUidPlus => bs "UIDPLUS"
  | CapCondStore => bs "CONDSTORE"
  | CapQResync => bs "QRESYNC"
  | CapNamespace => bs "NAMESPACE"
  | CapUtf8 k => bs "UTF8=" ++ utf8_kind_str k
  | CapOther a => a
  end.

(** The part of [From<Atom> for Capability] after the fixed names, response.rs:1231-1277. *)
Definition capability_eq (s : bytes) : option capability :=
  match split_once1 "="%byte s with
  | None => None
  | Some (lhs, rhs) =>
    let l := lowers lhs in
    if beqs l (bs "auth") then
      (if atom_ok rhs then Some (CapAuth (auth_mechanism_from rhs)) else None)
    else if beqs l (bs "compress") then
      (if atom_ok rhs then option_map CapCompress (compression_try_from rhs) else None)
    else if beqs l (bs "quota") then
      (match split_once (bs "res-") (lowers rhs) with
       | Some (_, r) => if atom_ok r then Some (CapQuotaRes (resource_from r)) else None
       | None => None
       end)
    else if beqs l (bs "sort") then
      (if atom_ok rhs then Some (CapSort (Some (sort_algorithm_from rhs))) else None)
    else if beqs l (bs "thread") then
      (if atom_ok rhs then Some (CapThread (threading_algorithm_from rhs)) else None)
    else None
  end.

(* response.rs:1176-1282 From<Atom> for Capability *)
Definition capability_from `{features} (s : atom_t) : capability :=
  let l := lowers s in
  if beqs l (bs "imap4rev1") then CapImap4Rev1
  else if beqs l (bs "logindisabled") then CapLoginDisabled
  else if starttls && beqs l (bs "starttls") then CapStartTls
  else if beqs l (bs "idle") then CapIdle
  else if ext_mailbox_referrals && beqs l (bs "mailbox-referrals") then CapMailboxReferrals
  else if ext_login_referrals && beqs l (bs "login-referrals") then CapLoginReferrals
  else if beqs l (bs "sasl-ir") then CapSaslIr
  else if beqs l (bs "enable") then CapEnable
  else if beqs l (bs "quota") then CapQuota
  else if beqs l (bs "quotaset") then CapQuotaSet
  else if beqs l (bs "literal+") then CapLiteralPlus
  else if beqs l (bs "literal-") then CapLiteralMinus
  else if beqs l (bs "move") then CapMove
  else if ext_id && beqs l (bs "id") then CapId
  else if beqs l (bs "sort") then CapSort None
  else if ext_metadata && beqs l (bs "metadata") then CapMetadata
  else if ext_metadata && beqs l (bs "metadata-server") then CapMetadataServer
  else if beqs l (bs "binary") then CapBinary
  else if beqs l (bs "unselect") then CapUnselect
  else if ext_condstore_qresync && beqs l (bs "condstore") then CapCondStore
  else if ext_condstore_qresync && beqs l (bs "qresync") then CapQResync
  else if beqs l (bs "uidplus") then CapUidPlus
  else if ext_utf8 && beqs l (bs "utf8=accept") then CapUtf8 Utf8Accept
  else if ext_utf8 && beqs l (bs "utf8=only") then CapUtf8 Utf8Only
  else match capability_eq s with
       | Some c => c
       | None => CapOther s
       end.
