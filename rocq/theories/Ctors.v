(** Constructors and small functions of imap-types that the codec itself does not use, or uses
    only in their boolean form (Conv.v): validators with their error values, conversions from
    byte strings including the [unwrap]s they contain, the command and response constructors,
    [TagGenerator] and [escape_byte_string]. *)

From Verif Require Import Bytes Dec Features Nom Types Utf8 Conv SeqSet Base64.

(** ** error.rs:21-31 [ValidationErrorKind] *)
Inductive verror :=
| VEmpty
| VNotEnough (min : nat)
| VInvalid
| VInvalidByteAt (b : byte) (at_ : nat).

(** The result of a conversion; [CPanic] is a panic of an [unwrap] or of an index. *)
Inductive conv (A : Type) := COk (a : A) | CErr (e : verror) | CPanic.
Arguments COk {A} a.
Arguments CErr {A} e.
Arguments CPanic {A}.
Definition cbind {A B} (c : conv A) (f : A -> conv B) : conv B :=
  match c with COk a => f a | CErr e => CErr e | CPanic => CPanic end.
Definition cmap {A B} (f : A -> B) (c : conv A) : conv B := cbind c (fun a => COk (f a)).
(** [if let Ok(x) = c { return Ok(x) }; d] *)
Definition c_or {A} (c d : conv A) : conv A :=
  match c with COk a => COk a | CErr _ => d | CPanic => CPanic end.

(** [Iterator::position] *)
Fixpoint position (p : byte -> bool) (s : bytes) : option nat :=
  match s with
  | [] => None
  | b :: s' => if p b then Some O else option_map S (position p s')
  end.

(** The check all validators of core.rs share, e.g. core.rs:130-137; [value[at]] may panic. *)
Definition check_bytes (ok : byte -> bool) (s : bytes) : conv unit :=
  match position (fun b => negb (ok b)) s with
  | Some at_ => match nth_error s at_ with Some b => CErr (VInvalidByteAt b at_) | None => CPanic end
  | None => COk tt
  end.
Definition check_nonempty (s : bytes) : conv unit :=
  match s with [] => CErr VEmpty | _ => COk tt end.

(* core.rs:123-138 *)
Definition validate_atom (s : bytes) : conv unit :=
  cbind (check_nonempty s) (fun _ => check_bytes is_atom_char s).
(* core.rs:273-288 *)
Definition validate_atom_ext (s : bytes) : conv unit :=
  cbind (check_nonempty s) (fun _ => check_bytes is_astring_char s).
(* core.rs:567-578 *)
Definition validate_literal (s : bytes) : conv unit := check_bytes is_char8 s.
(* core.rs:772-783 *)
Definition validate_quoted (s : bytes) : conv unit := check_bytes is_text_char s.
(* core.rs:1070-1088 *)
Definition validate_tag (s : bytes) : conv unit :=
  cbind (check_nonempty s)
    (fun _ => check_bytes (fun b => is_astring_char b && negb (beq b "+"%byte)) s).
(* core.rs:1249-1264 *)
Definition validate_text (s : bytes) : conv unit :=
  cbind (check_nonempty s) (fun _ => check_bytes is_text_char s).
(* mailbox.rs:24-39 *)
Definition validate_list_char_string (s : bytes) : conv unit :=
  cbind (check_nonempty s) (fun _ => check_bytes is_list_char s).
(* core.rs:1363-1373; a [char] is its code point, [as u8] truncates *)
Definition byte_trunc (c : N) : byte :=
  match Byte.of_N (c mod 256) with Some b => b | None => x00 end.
Definition validate_quoted_char (c : N) : conv unit :=
  if N.leb c 0x7f &&
     (is_any_text_char_except_quoted_specials (byte_trunc c)
      || N.eqb c (bN bBS) || N.eqb c (bN bDQ))
  then COk tt else CErr VInvalid.
(* core.rs:1549-1557 *)
Definition validate_vec_n {A} (n : nat) (l : list A) : conv unit :=
  if Nat.ltb (length l) n then CErr (VNotEnough n) else COk tt.

(** [from_utf8(s).unwrap()] *)
Definition utf8_unwrap (s : bytes) : conv bytes := if utf8_ok s then COk s else CPanic.

(** Conversions from [&[u8]] / [Vec<u8>]. Those from [&str] / [String] are the same without the
    [unwrap]; a [str] is its UTF-8 bytes. *)
(* core.rs:172-192 *)
Definition atom_from_bytes (s : bytes) : conv bytes :=
  cbind (validate_atom s) (fun _ => utf8_unwrap s).
(* core.rs:322-342 *)
Definition atom_ext_from_bytes (s : bytes) : conv bytes :=
  cbind (validate_atom_ext s) (fun _ => utf8_unwrap s).
(* core.rs:815-835 *)
Definition quoted_from_bytes (s : bytes) : conv bytes :=
  cbind (validate_quoted s) (fun _ => utf8_unwrap s).
(* core.rs:1116-1136 *)
Definition tag_from_bytes (s : bytes) : conv bytes :=
  cbind (validate_tag s) (fun _ => utf8_unwrap s).
(* core.rs:1296-1316 *)
Definition text_from_bytes (s : bytes) : conv bytes :=
  cbind (validate_text s) (fun _ => utf8_unwrap s).
(* core.rs:665-714: no conversion to [str], mode [Sync] *)
Definition literal_from_bytes (s : bytes) : conv literal_t :=
  cbind (validate_literal s) (fun _ => COk (mkLit s Sync)).
(* core.rs:1396-1404 *)
Definition quoted_char_from (c : N) : conv N :=
  cbind (validate_quoted_char c) (fun _ => COk c).
(* mailbox.rs:63-81, only from [&str] and [String] *)
Definition list_char_string_from_str (s : bytes) : conv bytes :=
  cbind (validate_list_char_string s) (fun _ => COk s).
(* core.rs:420-443 *)
Definition istring_from_bytes (s : bytes) : conv istring :=
  c_or (cmap IQuoted (quoted_from_bytes s)) (cmap ILiteral (literal_from_bytes s)).
(* core.rs:902-912 *)
Definition nstring_from_bytes (s : bytes) : conv nstring := cmap Some (istring_from_bytes s).
(* core.rs:951-974 *)
Definition astring_from_bytes (s : bytes) : conv astring :=
  c_or (cmap AAtom (atom_ext_from_bytes s)) (cmap AString (istring_from_bytes s)).
(* core.rs:1452-1475 *)
Definition charset_from_bytes (s : bytes) : conv charset :=
  c_or (cmap CharsetAtom (atom_from_bytes s)) (cmap CharsetQuoted (quoted_from_bytes s)).
(* mailbox.rs:98-131, only from [&str] and [String]; an [IString] from a [str] *)
Definition istring_from_str (s : bytes) : conv istring :=
  c_or (cmap (fun _ => IQuoted s) (validate_quoted s)) (cmap ILiteral (literal_from_bytes s)).
Definition list_mailbox_from_str (s : bytes) : conv list_mailbox :=
  match s with
  | [] => match validate_quoted s with COk _ => COk (LMString (IQuoted s)) | _ => CPanic end
  | _ => c_or (cmap LMToken (list_char_string_from_str s)) (cmap LMString (istring_from_str s))
  end.
(* mailbox.rs:204-210; [None] is [Err(Reserved)] *)
Definition validate_mailbox_other (s : bytes) : bool := negb (eqi s (bs "inbox")).
(* mailbox.rs:181-193 [TryFrom<..> for Mailbox] via [AString]; [impl_try_from], core.rs:64-76 *)
Definition mailbox_from_bytes (s : bytes) : conv mailbox :=
  cbind (astring_from_bytes s) (fun a =>
  match mailbox_from a with Some m => COk m | None => CPanic end).
(* mailbox.rs:233-252 [TryFrom<..> for MailboxOther]; the inner [None] is [Err(Reserved)] *)
Definition mailbox_other_from_bytes (s : bytes) : conv (option astring) :=
  cmap (fun a => if validate_mailbox_other (astring_bytes a) then Some a else None)
    (astring_from_bytes s).

(** Conversions of the keyword types from text: via [Atom] ([impl_try_from]). *)
(* auth.rs:143-147 *)
Definition auth_mechanism_from_bytes (s : bytes) : conv auth_mechanism :=
  cmap auth_mechanism_from (atom_from_bytes s).
(* quota.rs:191-195 *)
Definition resource_from_bytes (s : bytes) : conv resource :=
  cmap resource_from (atom_from_bytes s).
(* response.rs:1171-1175 *)
Definition capability_from_bytes `{features} (s : bytes) : conv capability :=
  cmap capability_from (atom_from_bytes s).
(* enable.rs:56-62 *)
Definition capability_enable_from_str `{features} (s : bytes) : conv capability_enable :=
  cmap capability_enable_from (cmap (fun _ => s) (validate_atom s)).
(* compress.rs:53-73: from [&str] and [&[u8]], without [Atom] *)
Definition compression_from_bytes (s : bytes) : conv compression_algorithm :=
  match compression_try_from s with Some a => COk a | None => CErr VInvalid end.
(* condstore_qresync.rs:44-54 *)
Definition attribute_flag_from_str (s : bytes) : conv attribute_flag :=
  match s with
  | c :: d :: s' =>
    if beq c bBS && beq d bBS
    then cmap (fun _ => attribute_flag_system s') (validate_atom s')
    else cmap (fun _ => AFKeyword s) (validate_atom s)
  | _ => cmap (fun _ => AFKeyword s) (validate_atom s)
  end.
(* flag.rs:69-79 *)
Definition flag_from_str (s : bytes) : conv flag :=
  match s with
  | c :: s' =>
    if beq c bBS then cmap (fun _ => flag_system s') (validate_atom s')
    else cmap (fun _ => FKeyword s) (validate_atom s)
  | [] => cmap (fun _ => FKeyword s) (validate_atom s)
  end.
(* flag.rs:172-180 *)
Definition is_selectability (f : flag_name_attribute) : bool :=
  match f with FNNoselect | FNMarked | FNUnmarked => true | _ => false end.

(** ** core.rs:1586-1594 [TryFrom<Vec<T>> for VecN<T, N>] *)
Definition vec_n_from {A} (n : nat) (l : list A) : conv (list A) :=
  cbind (validate_vec_n n l) (fun _ => COk l).

(** ** datetime.rs:18-36, 100-106
    [chrono] values by their fields; the year of a [chrono] date may be negative or large. *)
Inductive date_error :=
| YearOutOfRange (got : Z) | UnalignedNanoSeconds (got : N) | UnalignedOffset (got : Z).
Definition validate_date_time (year : Z) (nanos : N) (offset : Z) : option date_error :=
  if negb (Z.leb 0 year && Z.leb year 9999) then Some (YearOutOfRange year)
  else if negb (N.eqb nanos 0) then Some (UnalignedNanoSeconds nanos)
  else if negb (Z.eqb (Z.rem offset 60) 0) then Some (UnalignedOffset (Z.rem offset 60))
  else None.
Definition validate_naive_date (year : Z) : option date_error :=
  if negb (Z.leb 0 year && Z.leb year 9999) then Some (YearOutOfRange year) else None.

(** ** fetch.rs:39-49 *)
Definition macro_expand (m : macro) : list item_name :=
  match m with
  | MacroAll => [INFlags; INInternalDate; INRfc822Size; INEnvelope]
  | MacroFast => [INFlags; INInternalDate; INRfc822Size]
  | MacroFull => [INFlags; INInternalDate; INRfc822Size; INEnvelope; INBody]
  end.

(** ** command.rs:50-65, 1548-1804 and the constructors of the extensions

    Arguments of type [impl TryInto<T>] are byte strings, converted as above. [BadArg i e] is
    the error of the [i]-th converted argument: [LoginError::Username] is [BadArg 0],
    [LoginError::Password] is [BadArg 1], and so on. *)
Inductive built (A : Type) := Built (a : A) | BadArg (i : nat) (e : verror) | BuildPanic.
Arguments Built {A} a.
Arguments BadArg {A} i e.
Arguments BuildPanic {A}.
Definition with_arg {A B} (i : nat) (c : conv A) (f : A -> built B) : built B :=
  match c with COk a => f a | CErr e => BadArg i e | CPanic => BuildPanic end.

(* command.rs:52-60, 1550-1558 *)
Definition command_new (tag : bytes) (b : command_body) : built command :=
  with_arg 0%nat (tag_from_bytes tag) (fun t => Built (mkCommand t b)).
(* command.rs:1563-1568 *)
Definition cb_authenticate (m : auth_mechanism) : command_body := CAuthenticate m None.
(* command.rs:1577-1585 *)
Definition cb_authenticate_with_ir (m : auth_mechanism) (ir : bytes) : command_body :=
  CAuthenticate m (Some ir).
(* command.rs:1588-1597 *)
Definition cb_login (u p : bytes) : built command_body :=
  with_arg 0%nat (astring_from_bytes u) (fun u =>
  with_arg 1%nat (astring_from_bytes p) (fun p => Built (CLogin u p))).
Definition cb_mailbox (k : mailbox -> command_body) (m : bytes) : built command_body :=
  with_arg 0%nat (mailbox_from_bytes m) (fun m => Built (k m)).
(* command.rs:1600-1621 *)
Definition cb_select := cb_mailbox (fun m => CSelect m []).
Definition cb_examine := cb_mailbox (fun m => CExamine m []).
(* command.rs:1624-1641 *)
Definition cb_create := cb_mailbox CCreate.
Definition cb_delete := cb_mailbox CDelete.
(* command.rs:1644-1653 *)
Definition cb_rename (a b : bytes) : built command_body :=
  with_arg 0%nat (mailbox_from_bytes a) (fun a =>
  with_arg 1%nat (mailbox_from_bytes b) (fun b => Built (CRename a b))).
(* command.rs:1656-1673 *)
Definition cb_subscribe := cb_mailbox CSubscribe.
Definition cb_unsubscribe := cb_mailbox CUnsubscribe.
(* command.rs:1676-1703 *)
Definition cb_list (r p : bytes) : built command_body :=
  with_arg 0%nat (mailbox_from_bytes r) (fun r =>
  with_arg 1%nat (list_mailbox_from_str p) (fun p => Built (CList r p))).
Definition cb_lsub (r p : bytes) : built command_body :=
  with_arg 0%nat (mailbox_from_bytes r) (fun r =>
  with_arg 1%nat (list_mailbox_from_str p) (fun p => Built (CLsub r p))).
(* command.rs:1706-1717 *)
Definition cb_status (m : bytes) (items : list status_data_item_name) : built command_body :=
  with_arg 0%nat (mailbox_from_bytes m) (fun m => Built (CStatus m items)).
(* command.rs:1720-1736 *)
Definition cb_append (m : bytes) (flags : list flag) (date : option date_time) (msg : bytes)
  : built command_body :=
  with_arg 0%nat (mailbox_from_bytes m) (fun m =>
  with_arg 1%nat (literal_from_bytes msg) (fun msg => Built (CAppend m flags date (LLiteral msg)))).
(* command.rs:1739-1745 *)
Definition cb_search (cs : option charset) (criteria : list search_key) (uid : bool)
  : command_body := CSearch cs criteria uid.
(** A sequence set from text, sequence.rs:182-206 (the error is always [Invalid]). *)
Definition sequence_set_conv (s : bytes) : conv sequence_set :=
  match sequence_set_from_str s with Some q => COk q | None => CErr VInvalid end.
(* command.rs:1748-1762 *)
Definition cb_fetch (s : bytes) (items : macro_or_items) (uid : bool) : built command_body :=
  with_arg 0%nat (sequence_set_conv s) (fun s => Built (CFetch s items uid [])).
(* command.rs:1765-1786 *)
Definition cb_store (s : bytes) (kind : store_type) (resp : store_response) (flags : list flag)
    (uid : bool) : built command_body :=
  with_arg 0%nat (sequence_set_conv s) (fun s => Built (CStore s kind resp flags uid [])).
(* command.rs:1789-1804 *)
Definition cb_copy (s m : bytes) (uid : bool) : built command_body :=
  with_arg 0%nat (sequence_set_conv s) (fun s =>
  with_arg 1%nat (mailbox_from_bytes m) (fun m => Built (CCopy s m uid))).
(* move.rs:12-26 *)
Definition cb_move (s m : bytes) (uid : bool) : built command_body :=
  with_arg 0%nat (sequence_set_conv s) (fun s =>
  with_arg 1%nat (mailbox_from_bytes m) (fun m => Built (CMove s m uid))).
(* quota.rs:59-92 *)
Definition cb_get_quota (r : bytes) : built command_body :=
  with_arg 0%nat (astring_from_bytes r) (fun r => Built (CGetQuota r)).
Definition cb_get_quota_root := cb_mailbox CGetQuotaRoot.
Definition cb_set_quota (r : bytes) (q : list quota_set) : built command_body :=
  with_arg 0%nat (astring_from_bytes r) (fun r => Built (CSetQuota r q)).
(* enable.rs:27-34 *)
Definition cb_enable (l : list capability_enable) : built command_body :=
  with_arg 0%nat (vec_n_from 1%nat l) (fun l => Built (CEnable l)).
(* compress.rs:31-33 *)
Definition cb_compress (a : compression_algorithm) : command_body := CCompress a.
(* unselect.rs:9-11, namespace.rs:34-36 *)
Definition cb_unselect : command_body := CUnselect.
Definition cb_namespace : command_body := CNamespace.

(* command.rs:1806-1855 [CommandBody::name] *)
Definition command_name (b : command_body) : bytes :=
  match b with
  | CCapability => bs "CAPABILITY"
  | CNoop => bs "NOOP"
  | CLogout => bs "LOGOUT"
  | CStartTls => bs "STARTTLS"
  | CAuthenticate _ _ => bs "AUTHENTICATE"
  | CLogin _ _ => bs "LOGIN"
  | CSelect _ _ => bs "SELECT"
  | CSort _ _ _ _ => bs "SORT"
  | CThread _ _ _ _ => bs "THREAD"
  | CUnselect => bs "UNSELECT"
  | CExamine _ _ => bs "EXAMINE"
  | CCreate _ => bs "CREATE"
  | CDelete _ => bs "DELETE"
  | CRename _ _ => bs "RENAME"
  | CSubscribe _ => bs "SUBSCRIBE"
  | CUnsubscribe _ => bs "UNSUBSCRIBE"
  | CList _ _ => bs "LIST"
  | CLsub _ _ => bs "LSUB"
  | CStatus _ _ => bs "STATUS"
  | CAppend _ _ _ _ => bs "APPEND"
  | CCheck => bs "CHECK"
  | CClose => bs "CLOSE"
  | CExpunge => bs "EXPUNGE"
  | CExpungeUid _ => bs "EXPUNGE"
  | CSearch _ _ _ => bs "SEARCH"
  | CFetch _ _ _ _ => bs "FETCH"
  | CStore _ _ _ _ _ _ => bs "STORE"
  | CCopy _ _ _ => bs "COPY"
  | CIdle => bs "IDLE"
  | CEnable _ => bs "ENABLE"
  | CCompress _ => bs "COMPRESS"
  | CGetQuota _ => bs "GETQUOTA"
  | CGetQuotaRoot _ => bs "GETQUOTAROOT"
  | CSetQuota _ _ => bs "SETQUOTA"
  | CMove _ _ _ => bs "MOVE"
  | CId _ => bs "ID"
  | CSetMetadata _ _ => bs "SETMETADATA"
  | CGetMetadata _ _ _ => bs "GETMETADATA"
  | CNamespace => bs "NAMESPACE"
  end.

(** ** response.rs: constructors *)
(* response.rs:60-94 *)
Definition greeting_new (k : greeting_kind) (c : option code) (t : bytes) : built greeting :=
  with_arg 0%nat (text_from_bytes t) (fun t => Built (mkGreeting k c t)).
(* response.rs:71-93 *)
Definition greeting_ok := greeting_new GKOk.
Definition greeting_preauth := greeting_new GKPreAuth.
Definition greeting_bye := greeting_new GKBye.
(* response.rs:228-247 *)
Definition status_new (tag : option bytes) (k : status_kind) (c : option code) (t : bytes)
  : built status :=
  with_arg 0%nat (text_from_bytes t) (fun t =>
  match tag with
  | Some tag => Built (StTagged tag (mkStatusBody k c t))
  | None => Built (StUntagged (mkStatusBody k c t))
  end).
(* response.rs:250-281 *)
Definition status_ok tag := status_new tag SKOk.
Definition status_no tag := status_new tag SKNo.
Definition status_bad tag := status_new tag SKBad.
Definition status_bye (c : option code) (t : bytes) : built status :=
  with_arg 0%nat (text_from_bytes t) (fun t => Built (StBye c t)).
(* response.rs:285-312 *)
Definition status_tag (s : status) : option bytes :=
  match s with StTagged t _ => Some t | _ => None end.
Definition status_code (s : status) : option code :=
  match s with StUntagged b | StTagged _ b => sb_code b | StBye c _ => c end.
Definition status_text (s : status) : bytes :=
  match s with StUntagged b | StTagged _ b => sb_text b | StBye _ t => t end.

(** [NonZeroU32::try_from(u32)] *)
Definition nz_from (n : N) : conv N := if N.eqb n 0 then CErr VInvalid else COk n.
(* response.rs:610-615, 642-655 *)
Definition data_capability (l : list capability) : built data :=
  with_arg 0%nat (vec_n_from 1%nat l) (fun l => Built (DCapability l)).
Definition data_expunge (n : N) : built data :=
  with_arg 0%nat (nz_from n) (fun n => Built (DExpunge n)).
Definition data_fetch (n : N) (items : list message_data_item) : built data :=
  with_arg 0%nat (nz_from n) (fun n =>
  with_arg 1%nat (vec_n_from 1%nat items) (fun items => Built (DFetch n items))).
(* quota.rs:96-119 *)
Definition data_quota (root : bytes) (l : list quota_get) : built data :=
  with_arg 0%nat (astring_from_bytes root) (fun root =>
  with_arg 1%nat (vec_n_from 1%nat l) (fun l => Built (DQuota root l))).
Definition data_quota_root (m : bytes) (roots : list astring) : built data :=
  with_arg 0%nat (mailbox_from_bytes m) (fun m => Built (DQuotaRoot m roots)).
(* response.rs:980-1005 *)
Definition code_badcharset (l : list charset) : code := CdBadCharset l.
Definition code_capability (l : list capability) : built code :=
  with_arg 0%nat (vec_n_from 1%nat l) (fun l => Built (CdCapability l)).
Definition code_permanentflags (l : list flag_perm) : code := CdPermanentFlags l.
Definition code_uidnext (n : N) : built code :=
  with_arg 0%nat (nz_from n) (fun n => Built (CdUidNext n)).
Definition code_uidvalidity (n : N) : built code :=
  with_arg 0%nat (nz_from n) (fun n => Built (CdUidValidity n)).
Definition code_unseen (n : N) : built code :=
  with_arg 0%nat (nz_from n) (fun n => Built (CdUnseen n)).

(* response.rs:745-762; the outer [None] is [ContinueError::Ambiguity] *)
Definition continue_basic_new (c : option code) (t : bytes)
  : built (option continuation) :=
  with_arg 0%nat (text_from_bytes t) (fun t =>
  let none := match c with None => true | _ => false end in
  if none && starts_with (bs "[") t then Built None
  else if none && (match b64_decode t with Some _ => true | None => false end) then Built None
  else Built (Some (CRBasic c t))).
(* response.rs:698-703 *)
Definition continue_base64 (d : bytes) : continuation := CRBase64 d.
(* auth.rs:222-227 *)
Definition authenticate_continue (d : bytes) : authenticate_data := ADContinue d.

(** ** utils.rs:6-32 [escape_byte_string] *)
Definition hex_digit (n : N) : byte :=
  match Byte.of_N (if N.ltb n 10 then 48 + n else 87 + n) with Some b => b | None => x00 end.
(** [format!("\\x{byte:02x}")] *)
Definition hex_escape (b : byte) : bytes :=
  [bBS; "x"%byte; hex_digit (bN b / 16); hex_digit (bN b mod 16)].
Definition escape_byte (b : byte) : bytes :=
  if inb 0x00 0x08 b then hex_escape b
  else if inb 0x09 0x09 b then bs "\t"
  else if inb 0x0a 0x0a b then bs "\n"
  else if inb 0x0b 0x0b b then hex_escape b
  else if inb 0x0c 0x0c b then hex_escape b
  else if inb 0x0d 0x0d b then bs "\r"
  else if inb 0x0e 0x1f b then hex_escape b
  else if inb 0x20 0x21 b then [b]
  else if inb 0x22 0x22 b then [bBS; bDQ]
  else if inb 0x23 0x5b b then [b]
  else if inb 0x5c 0x5c b then [bBS; bBS]
  else if inb 0x5d 0x7e b then [b]
  else if inb 0x7f 0x7f b then hex_escape b
  else hex_escape b.
Definition escape_byte_string (s : bytes) : bytes := concat (map escape_byte s).

(** ** core.rs:1164-1208 [TagGenerator]

    The program state is the static counter, the generators alive, and (as a trace) the tags
    handed out. [TagGenerator::new] is one atomic [fetch_add]; [generate] takes [&mut self], so
    at most one thread runs it on a given generator, and it reads and writes nothing else. An
    execution of any number of threads is therefore some sequence of the events below.
    [usize] and [u64] have 64 bits. The random token of a release build is part of the event. *)
Record tag_generator := mkGen { tg_global : N; tg_counter : N }.
Record tag_world := mkWorld {
  tw_count : N; tw_gens : list tag_generator; tw_tags : list bytes }.
Inductive tag_event :=
| TNew
| TGenerate (i : nat) (token : bytes).
Definition wrapping_succ (n : N) : N := if N.ltb n u64_max then n + 1 else 0.
(* core.rs:1194-1202: debug builds have no token *)
Definition tag_text (debug : bool) (g : tag_generator) (token : bytes) : bytes :=
  if debug then dec (tg_global g) ++ bs "." ++ dec (tg_counter g)
  else dec (tg_global g) ++ bs "." ++ dec (tg_counter g) ++ bs "." ++ token.
Fixpoint replace_nth {A} (l : list A) (i : nat) (x : A) : list A :=
  match l, i with
  | [], _ => []
  | _ :: l', O => x :: l'
  | y :: l', S i' => y :: replace_nth l' i' x
  end.
(** [None] is the panic of [Tag::unvalidated] in debug builds (core.rs:1103-1114), or an event of
    a generator that does not exist. *)
Definition tag_step (debug : bool) (w : tag_world) (e : tag_event) : option tag_world :=
  match e with
  | TNew =>
    Some (mkWorld (wrapping_succ (tw_count w)) (tw_gens w ++ [mkGen (tw_count w) 0]) (tw_tags w))
  | TGenerate i token =>
    match nth_error (tw_gens w) i with
    | None => None
    | Some g =>
      let inner := tag_text debug g token in
      if debug && negb (tag_ok inner) then None
      else Some (mkWorld (tw_count w)
             (replace_nth (tw_gens w) i (mkGen (tg_global g) (wrapping_succ (tg_counter g))))
             (tw_tags w ++ [inner]))
    end
  end.
Fixpoint tag_run (debug : bool) (w : tag_world) (l : list tag_event) : option tag_world :=
  match l with
  | [] => Some w
  | e :: l' => match tag_step debug w e with Some w' => tag_run debug w' l' | None => None end
  end.
Definition tag_start : tag_world := mkWorld 0 [] [].
