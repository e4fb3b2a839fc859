(** The wire format, as a grammar.

    [G_command t c]: the bytes [t] are a command (with its line ending), and they mean [c].
    The rules follow the formal syntax of RFC 3501 section 9 and of the extension RFCs, extended
    by what the crate's quirk features and its documentation add. They use nothing of the
    decoder: only the data types, the feature flags and ValueSpec.v. Sound.v and Complete.v
    relate the decoder to the grammar. *)

From Verif Require Import Bytes Features Nom Types Utf8 ValueSpec.
Open Scope N_scope.

(** [L t a]: the text [t] means the value [a]. *)
Definition lang (A : Type) := bytes -> A -> Prop.

(** A keyword, in any letter case. *)
Notation "t ~ k" := (same_letters t (bs k%bytestr)) (at level 70, k at level 0).

(** One or more, with a separator; zero or more, without one; zero or one. *)
Inductive sep_by {A} (sep : bytes) (L : lang A) : lang (list A) :=
| sep_one t a : L t a -> sep_by sep L t [a]
| sep_more t a u l : L t a -> sep_by sep L u l -> sep_by sep L (t ++ sep ++ u) (a :: l).
Inductive many {A} (L : lang A) : lang (list A) :=
| many_none : many L [] []
| many_more t a u l : L t a -> many L u l -> many L (t ++ u) (a :: l).
Inductive optional {A} (L : lang A) : lang (option A) :=
| opt_none : optional L [] None
| opt_some t a : L t a -> optional L t (Some a).
(** [s L] *)
Inductive after {A} (s : bytes) (L : lang A) : lang A :=
| after_intro t a : L t a -> after s L (s ++ t) a.
(** Zero or more, with a separator. *)
Inductive list_of {A} (sep : bytes) (L : lang A) : lang (list A) :=
| list_none : list_of sep L [] []
| list_some t l : sep_by sep L t l -> list_of sep L t l.
(** [n] or more, without a separator *)
Definition at_least {A} (n : nat) (L : lang A) : lang (list A) := fun t l =>
  many L t l /\ (n <= length l)%nat.
(** ["(" L ")"] *)
Inductive in_parens {A} (L : lang A) : lang A :=
| parens_intro t a : L t a -> in_parens L (bs "(" ++ t ++ bs ")") a.
(** Nothing, or [" (" 1*L ")"], the list is then not empty. *)
Inductive opt_list {A} (L : lang A) : lang (list A) :=
| opt_list_none : opt_list L [] []
| opt_list_some t l : in_parens (sep_by (bs " ") L) t l -> opt_list L (bs " " ++ t) l.
(** A word: one of a table of fixed words, in any letter case. *)
Inductive word {A} (table : list (bytes * A)) : lang A :=
| word_intro t s a : In (s, a) table -> same_letters t s -> word table t a.
(** A name: an atom; those of the table have their own meaning, in any letter case. *)
Inductive name {A} (table : list (bytes * A)) (other : bytes -> A) : lang A :=
| name_known t s a : In (s, a) table -> same_letters t s -> name table other t a
| name_other t : some_of ATOM_CHAR t ->
    (forall s a, In (s, a) table -> ~ same_letters t s) -> name table other t (other t).
Definition when {A} (b : bool) (l : list A) : list A := if b then l else [].

(** ** Tokens *)
Section Tokens.
Context {F : features}.

(** CRLF; a bare LF with quirk_crlf_relaxed *)
Definition eol (t : bytes) : Prop :=
  t = [bCR; bLF] \/ (quirk_crlf_relaxed = true /\ t = [bLF]).

(** number = 1*DIGIT, of a type with maximum [max] *)
Definition G_num (max : N) : lang N := fun t n => t <> [] /\ digits t n /\ n <= max.
Definition G_number : lang N := G_num u32_max.
Definition G_number64 : lang N := G_num u64_max.
(** nz-number = digit-nz *DIGIT; leading zeros are tolerated. *)
Definition G_nz (max : N) : lang N := fun t n => G_num max t n /\ n <> 0.
Definition G_nz_number : lang N := G_nz u32_max.
Definition G_nz_number64 : lang N := G_nz u64_max.

Definition G_atom : lang bytes := fun t a => some_of ATOM_CHAR t /\ a = t.
Definition G_tag : lang bytes := fun t a => some_of TAG_CHAR t /\ a = t.
Definition G_text : lang bytes := fun t a => some_of TEXT_CHAR t /\ a = t.
Definition G_nil (t : bytes) : Prop := t ~ "NIL".

(** quoted = DQUOTE *QUOTED-CHAR DQUOTE *)
Inductive G_quoted : lang bytes :=
| g_quoted w s : quoted_body w s -> many_of TEXT_CHAR s ->
    G_quoted ([bDQ] ++ w ++ [bDQ]) s.
(** literal = "{" number ["+"] "}" CRLF *CHAR8; literal8 = "~" and the same with any bytes *)
Inductive G_lit_mode : lang lit_mode :=
| g_sync : G_lit_mode [] Sync
| g_nonsync : G_lit_mode (bs "+") NonSync.
Inductive G_literal : lang literal_t :=
| g_literal d m mode e s : G_number d (lenN s) -> G_lit_mode m mode -> eol e -> many_of CHAR8 s ->
    G_literal (bs "{" ++ d ++ m ++ bs "}" ++ e ++ s) (mkLit s mode).
Inductive G_literal8 : lang literal8_t :=
| g_literal8 d m mode e s : G_number d (lenN s) -> G_lit_mode m mode -> eol e ->
    G_literal8 (bs "~{" ++ d ++ m ++ bs "}" ++ e ++ s) (mkLit8 s mode).
(** string = quoted / literal; with ext_utf8 a quoted string may contain UTF-8 *)
Inductive G_string : lang istring :=
| g_str_quoted t s : G_quoted t s -> G_string t (IQuoted s)
| g_str_utf8 w s : ext_utf8 = true -> quoted_body w s -> utf8_ok w = true ->
    ~ many_of TEXT_CHAR s -> G_string ([bDQ] ++ w ++ [bDQ]) (IQuotedUtf8 s)
| g_str_literal t l : G_literal t l -> G_string t (ILiteral l).
(** nstring = string / nil *)
Inductive G_nstring : lang nstring :=
| g_nstr_string t s : G_string t s -> G_nstring t (Some s)
| g_nstr_nil t : G_nil t -> G_nstring t None.
(** astring = 1*ASTRING-CHAR / string *)
Inductive G_astring : lang astring :=
| g_astr_atom t : some_of ASTRING_CHAR t -> G_astring t (AAtom t)
| g_astr_string t s : G_string t s -> G_astring t (AString s).
(** nstring8 = nstring / literal8 *)
Inductive G_nstring8 : lang nstring8 :=
| g_n8_nstring t n : G_nstring t n -> G_nstring8 t (N8NString n)
| g_n8_literal8 t l : G_literal8 t l -> G_nstring8 t (N8Literal8 l).
(** charset = atom / quoted *)
Inductive G_charset : lang charset :=
| g_cs_atom t : some_of ATOM_CHAR t -> G_charset t (CharsetAtom t)
| g_cs_quoted t s : G_quoted t s -> G_charset t (CharsetQuoted s).
(** One quoted character *)
Inductive G_quoted_char : lang byte :=
| g_qc b w : TEXT_CHAR b -> quoted_body w [b] -> G_quoted_char ([bDQ] ++ w ++ [bDQ]) b.
Definition G_base64 : lang bytes := fun t p => base64 p t.

(** ** Sequence sets *)
Inductive G_seq_number : lang seq_or_uid :=
| g_seq_value t n : G_nz_number t n -> G_seq_number t (SValue n)
| g_seq_asterisk : G_seq_number (bs "*") SAsterisk.
Inductive G_sequence : lang sequence :=
| g_seq_single t a : G_seq_number t a -> G_sequence t (SSingle a)
| g_seq_range t a u b : G_seq_number t a -> G_seq_number u b ->
    G_sequence (t ++ bs ":" ++ u) (SRange a b).
Definition G_sequence_set : lang sequence_set := sep_by (bs ",") G_sequence.

(** ** Mailboxes and flags *)
(** mailbox = "INBOX" / astring; INBOX is case-insensitive, as atom or as string *)
Inductive G_mailbox : lang mailbox :=
| g_mailbox t a m : G_astring t a ->
    (m = MInbox /\ same_letters (bytes_of_astring a) (bs "INBOX") \/
     m = MOther a /\ ~ same_letters (bytes_of_astring a) (bs "INBOX")) ->
    G_mailbox t m.
(** list-mailbox = 1*list-char / string *)
Inductive G_list_mailbox : lang list_mailbox :=
| g_lm_token t : some_of LIST_CHAR t -> G_list_mailbox t (LMToken t)
| g_lm_string t s : G_string t s -> G_list_mailbox t (LMString s).
Definition flag_table : list (bytes * flag) :=
  [(bs "Answered", FAnswered); (bs "Deleted", FDeleted); (bs "Draft", FDraft);
   (bs "Flagged", FFlagged); (bs "Seen", FSeen)].
Inductive G_flag : lang flag :=
| g_flag_system t f : name flag_table FExtension t f -> G_flag (bs "\" ++ t) f
| g_flag_keyword t : some_of ATOM_CHAR t -> G_flag t (FKeyword t).
Definition G_flag_list : lang (list flag) := in_parens (list_of (bs " ") G_flag).
Inductive G_flag_fetch : lang flag_fetch :=
| g_ff_recent t : t ~ "\Recent" -> G_flag_fetch t FFRecent
| g_ff_flag t f : G_flag t f -> ~ (t ~ "\Recent") -> G_flag_fetch t (FFFlag f).
Inductive G_flag_perm : lang flag_perm :=
| g_fp_asterisk : G_flag_perm (bs "\*") FPAsterisk
| g_fp_flag t f : G_flag t f -> G_flag_perm t (FPFlag f).
Definition flag_name_table : list (bytes * flag_name_attribute) :=
  [(bs "Noinferiors", FNNoinferiors); (bs "Noselect", FNNoselect); (bs "Marked", FNMarked);
   (bs "Unmarked", FNUnmarked)].
Definition G_flag_name : lang flag_name_attribute :=
  after (bs "\") (name flag_name_table FNExtension).

(** ** Dates *)
Definition month_table : list (bytes * N) :=
  [(bs "Jan", 1); (bs "Feb", 2); (bs "Mar", 3); (bs "Apr", 4); (bs "May", 5); (bs "Jun", 6);
   (bs "Jul", 7); (bs "Aug", 8); (bs "Sep", 9); (bs "Oct", 10); (bs "Nov", 11); (bs "Dec", 12)].
(** [k] digits *)
Definition G_digits (k : nat) : lang N := fun t n => length t = k /\ digits t n.
(** date-text = date-day "-" date-month "-" date-year, a date of the calendar *)
Inductive G_date_text : lang naive_date :=
| g_date_text k td d tm m ty y : In k [1; 2]%nat -> G_digits k td d -> word month_table tm m ->
    G_digits 4 ty y -> real_date (mkDate y m d) ->
    G_date_text (td ++ bs "-" ++ tm ++ bs "-" ++ ty) (mkDate y m d).
(** date = date-text / DQUOTE date-text DQUOTE *)
Inductive G_date : lang naive_date :=
| g_date t d : G_date_text t d -> G_date t d
| g_date_quoted t d : G_date_text t d -> G_date ([bDQ] ++ t ++ [bDQ]) d.
(** date-day-fixed = (SP DIGIT) / 2DIGIT *)
Inductive G_day_fixed : lang N :=
| g_day_1 t d : G_digits 1 t d -> G_day_fixed (bs " " ++ t) d
| g_day_2 t d : G_digits 2 t d -> G_day_fixed t d.
(** zone = ("+" / "-") 4DIGIT; the offset in seconds *)
Inductive G_zone : lang Z :=
| g_zone_east th h tm m : G_digits 2 th h -> G_digits 2 tm m ->
    G_zone (bs "+" ++ th ++ tm) (60 * (60 * Z.of_N h + Z.of_N m))%Z
| g_zone_west th h tm m : G_digits 2 th h -> G_digits 2 tm m ->
    G_zone (bs "-" ++ th ++ tm) (- (60 * (60 * Z.of_N h + Z.of_N m)))%Z.
(** date-time = DQUOTE date-day-fixed "-" date-month "-" date-year SP time SP zone DQUOTE *)
Inductive G_date_time : lang date_time :=
| g_date_time td d tm m ty y th h ti i ts s tz z :
    G_day_fixed td d -> word month_table tm m -> G_digits 4 ty y ->
    G_digits 2 th h -> G_digits 2 ti i -> G_digits 2 ts s -> G_zone tz z ->
    real_date_time (mkDateTime (mkDate y m d) h i s z) ->
    G_date_time ([bDQ] ++ td ++ bs "-" ++ tm ++ bs "-" ++ ty ++ bs " "
                   ++ th ++ bs ":" ++ ti ++ bs ":" ++ ts ++ bs " " ++ tz ++ [bDQ])
      (mkDateTime (mkDate y m d) h i s z).

(** ** Names *)
(** SCRAM-SHA3-512 is not recognised (see C32). *)
Definition auth_table : list (bytes * auth_mechanism) :=
  [(bs "PLAIN", AMPlain); (bs "LOGIN", AMLogin); (bs "OAUTHBEARER", AMOAuthBearer);
   (bs "XOAUTH2", AMXOAuth2); (bs "SCRAM-SHA-1", AMScramSha1);
   (bs "SCRAM-SHA-1-PLUS", AMScramSha1Plus); (bs "SCRAM-SHA-256", AMScramSha256);
   (bs "SCRAM-SHA-256-PLUS", AMScramSha256Plus)].
Definition G_auth_type : lang auth_mechanism := name auth_table AMOther.
Definition resource_table : list (bytes * resource) :=
  [(bs "STORAGE", RStorage); (bs "MESSAGE", RMessage); (bs "MAILBOX", RMailbox);
   (bs "ANNOTATION-STORAGE", RAnnotationStorage)].
Definition G_resource : lang resource := name resource_table ROther.
Definition sort_algorithm_table : list (bytes * sort_algorithm) := [(bs "DISPLAY", SADisplay)].
Definition thread_table : list (bytes * threading_algorithm) :=
  [(bs "ORDEREDSUBJECT", TAOrderedSubject); (bs "REFERENCES", TAReferences)].
Definition G_thread_alg : lang threading_algorithm := name thread_table TAOther.
Definition enable_table : list (bytes * capability_enable) :=
  when ext_condstore_qresync [(bs "CONDSTORE", CECondStore)] ++
  when ext_metadata [(bs "METADATA", CEMetadata); (bs "METADATA-SERVER", CEMetadataServer)] ++
  when ext_utf8 [(bs "UTF8=ACCEPT", CEUtf8 Utf8Accept); (bs "UTF8=ONLY", CEUtf8 Utf8Only)].
Definition G_enable_name : lang capability_enable := name enable_table CEOther.
(** NAMESPACE is not recognised (see C32). *)
Definition capability_table : list (bytes * capability) :=
  [(bs "IMAP4REV1", CapImap4Rev1); (bs "LOGINDISABLED", CapLoginDisabled); (bs "IDLE", CapIdle);
   (bs "SASL-IR", CapSaslIr); (bs "ENABLE", CapEnable); (bs "QUOTA", CapQuota);
   (bs "QUOTASET", CapQuotaSet); (bs "LITERAL+", CapLiteralPlus); (bs "LITERAL-", CapLiteralMinus);
   (bs "MOVE", CapMove); (bs "SORT", CapSort None); (bs "BINARY", CapBinary);
   (bs "UNSELECT", CapUnselect); (bs "UIDPLUS", CapUidPlus)] ++
  when starttls [(bs "STARTTLS", CapStartTls)] ++
  when ext_mailbox_referrals [(bs "MAILBOX-REFERRALS", CapMailboxReferrals)] ++
  when ext_login_referrals [(bs "LOGIN-REFERRALS", CapLoginReferrals)] ++
  when ext_id [(bs "ID", CapId)] ++
  when ext_metadata [(bs "METADATA", CapMetadata); (bs "METADATA-SERVER", CapMetadataServer)] ++
  when ext_condstore_qresync [(bs "CONDSTORE", CapCondStore); (bs "QRESYNC", CapQResync)] ++
  when ext_utf8 [(bs "UTF8=ACCEPT", CapUtf8 Utf8Accept); (bs "UTF8=ONLY", CapUtf8 Utf8Only)].
Inductive G_known_capability : lang capability :=
| g_cap_word t c : word capability_table t c -> G_known_capability t c
| g_cap_auth k t m : k ~ "AUTH=" -> G_auth_type t m -> G_known_capability (k ++ t) (CapAuth m)
| g_cap_compress k t : k ~ "COMPRESS=" -> t ~ "DEFLATE" ->
    G_known_capability (k ++ t) (CapCompress Deflate)
| g_cap_sort k t a : k ~ "SORT=" -> name sort_algorithm_table SAOther t a ->
    G_known_capability (k ++ t) (CapSort (Some a))
| g_cap_thread k t a : k ~ "THREAD=" -> G_thread_alg t a ->
    G_known_capability (k ++ t) (CapThread a)
(** RFC 9208 has [x = []] here; the name of the resource is turned into lower case. *)
| g_cap_quota k x r t u a : k ~ "QUOTA=" -> many_of ATOM_CHAR x -> r ~ "RES-" ->
    (forall y s z, x = y ++ s ++ z -> ~ s ~ "RES-") ->
    same_letters t u -> Forall (fun b => ~ 0x41 <= bN b <= 0x5A) u -> G_resource u a ->
    G_known_capability (k ++ x ++ r ++ t) (CapQuotaRes a).
Inductive G_capability : lang capability :=
| g_cap_known t c : G_known_capability t c -> G_capability t c
| g_cap_other t : some_of ATOM_CHAR t -> (forall c, ~ G_known_capability t c) ->
    G_capability t (CapOther t).

(** ** CONDSTORE *)
Definition attribute_flag_table : list (bytes * attribute_flag) :=
  [(bs "Answered", AFAnswered); (bs "Flagged", AFFlagged); (bs "Deleted", AFDeleted);
   (bs "Seen", AFSeen); (bs "Draft", AFDraft)].
Inductive G_attr_flag : lang attribute_flag :=
| g_af_system t f : name attribute_flag_table AFExtension t f -> G_attr_flag (bs "\\" ++ t) f
| g_af_keyword t : some_of ATOM_CHAR t -> G_attr_flag t (AFKeyword t).
Definition entry_type_table : list (bytes * entry_type_req) :=
  [(bs "priv", ETPrivate); (bs "shared", ETShared); (bs "all", ETAll)].
Inductive G_modseq_ext : lang (attribute_flag * entry_type_req) :=
| g_modseq_ext k t f u e : k ~ "/flags/" -> G_attr_flag t f -> word entry_type_table u e ->
    G_modseq_ext (bs " " ++ [bDQ] ++ k ++ t ++ [bDQ] ++ bs " " ++ u) (f, e).

(** ** Search keys *)
Definition search_words : list (bytes * search_key) :=
  [(bs "ALL", KAll); (bs "ANSWERED", KAnswered); (bs "DELETED", KDeleted); (bs "FLAGGED", KFlagged);
   (bs "NEW", KNew); (bs "OLD", KOld); (bs "RECENT", KRecent); (bs "SEEN", KSeen);
   (bs "UNANSWERED", KUnanswered); (bs "UNDELETED", KUndeleted); (bs "UNFLAGGED", KUnflagged);
   (bs "UNSEEN", KUnseen); (bs "DRAFT", KDraft); (bs "UNDRAFT", KUndraft)].
Definition search_astring : list (bytes * (astring -> search_key)) :=
  [(bs "BCC", KBcc); (bs "BODY", KBody); (bs "CC", KCc); (bs "FROM", KFrom);
   (bs "SUBJECT", KSubject); (bs "TEXT", KText); (bs "TO", KTo)].
Definition search_date : list (bytes * (naive_date -> search_key)) :=
  [(bs "BEFORE", KBefore); (bs "ON", KOn); (bs "SINCE", KSince); (bs "SENTBEFORE", KSentBefore);
   (bs "SENTON", KSentOn); (bs "SENTSINCE", KSentSince)].
Inductive G_search_key : lang search_key :=
| g_key_word t k : word search_words t k -> G_search_key t k
| g_key_astring k f t s : word search_astring k f -> G_astring t s ->
    G_search_key (k ++ bs " " ++ t) (f s)
| g_key_date k f t d : word search_date k f -> G_date t d ->
    G_search_key (k ++ bs " " ++ t) (f d)
| g_key_keyword k t : k ~ "KEYWORD" -> some_of ATOM_CHAR t ->
    G_search_key (k ++ bs " " ++ t) (KKeyword t)
| g_key_unkeyword k t : k ~ "UNKEYWORD" -> some_of ATOM_CHAR t ->
    G_search_key (k ++ bs " " ++ t) (KUnkeyword t)
| g_key_header k t a u b : k ~ "HEADER" -> G_astring t a -> G_astring u b ->
    G_search_key (k ++ bs " " ++ t ++ bs " " ++ u) (KHeader a b)
| g_key_larger k t n : k ~ "LARGER" -> G_number t n ->
    G_search_key (k ++ bs " " ++ t) (KLarger n)
| g_key_smaller k t n : k ~ "SMALLER" -> G_number t n ->
    G_search_key (k ++ bs " " ++ t) (KSmaller n)
| g_key_not k t a : k ~ "NOT" -> G_search_key t a ->
    G_search_key (k ++ bs " " ++ t) (KNot a)
| g_key_or k t a u b : k ~ "OR" -> G_search_key t a -> G_search_key u b ->
    G_search_key (k ++ bs " " ++ t ++ bs " " ++ u) (KOr a b)
| g_key_uid k t s : k ~ "UID" -> G_sequence_set t s ->
    G_search_key (k ++ bs " " ++ t) (KUid s)
| g_key_modseq k e eo t n : ext_condstore_qresync = true -> k ~ "MODSEQ" ->
    optional G_modseq_ext e eo -> G_number64 t n ->
    G_search_key (k ++ e ++ bs " " ++ t) (KModSequence eo n)
| g_key_set t s : G_sequence_set t s -> G_search_key t (KSequenceSet s)
| g_key_and t l : in_parens (sep_by (bs " ") G_search_key) t l -> G_search_key t (KAnd l).
(** How deep search keys are nested. *)
Fixpoint key_depth (k : search_key) : nat :=
  match k with
  | KNot k => S (key_depth k)
  | KOr a b => S (Nat.max (key_depth a) (key_depth b))
  | KAnd l => S (fold_right Nat.max O (map key_depth l))
  | _ => O
  end.
(** At least one key; at most 8 levels of NOT, OR and parentheses *)
Inductive G_search_keys : lang (list search_key) :=
| g_search_keys t l : sep_by (bs " ") G_search_key t l -> Forall (fun k => (key_depth k <= 8)%nat) l ->
    G_search_keys t l.

(** ** Status items, fetch items *)
Definition status_att_table : list (bytes * status_data_item_name) :=
  [(bs "MESSAGES", SNMessages); (bs "RECENT", SNRecent); (bs "UIDNEXT", SNUidNext);
   (bs "UIDVALIDITY", SNUidValidity); (bs "UNSEEN", SNUnseen); (bs "DELETED", SNDeleted);
   (bs "DELETED-STORAGE", SNDeletedStorage)] ++
  when ext_condstore_qresync [(bs "HIGHESTMODSEQ", SNHighestModSeq)].
Definition status_val_table : list (bytes * (lang N * (N -> status_data_item))) :=
  [(bs "MESSAGES ", (G_number, SIMessages)); (bs "RECENT ", (G_number, SIRecent));
   (bs "UIDNEXT ", (G_nz_number, SIUidNext)); (bs "UIDVALIDITY ", (G_nz_number, SIUidValidity));
   (bs "UNSEEN ", (G_number, SIUnseen)); (bs "DELETED ", (G_number, SIDeleted));
   (bs "DELETED-STORAGE ", (G_number64, SIDeletedStorage))] ++
  when ext_condstore_qresync [(bs "HIGHESTMODSEQ ", (G_number64, SIHighestModSeq))].
Inductive G_status_val : lang status_data_item :=
| g_status_val k L f t n : word status_val_table k (L, f) -> L t n -> G_status_val (k ++ t) (f n).

Definition G_part : lang (list N) := sep_by (bs ".") G_nz_number.
Definition G_header_list : lang (list astring) := in_parens (sep_by (bs " ") G_astring).
(** The part number in front of HEADER, HEADER.FIELDS, TEXT *)
Inductive G_part_dot : lang (option (list N)) :=
| g_no_part : G_part_dot [] None
| g_part_dot t n : G_part t n -> G_part_dot (t ++ bs ".") (Some n).
Inductive G_section_spec : lang section :=
| g_sec_part t n : G_part t n -> G_section_spec t (SecPart n)
| g_sec_header p n k : G_part_dot p n -> k ~ "HEADER" -> G_section_spec (p ++ k) (SecHeader n)
| g_sec_fields p n k t l : G_part_dot p n -> k ~ "HEADER.FIELDS" -> G_header_list t l ->
    G_section_spec (p ++ k ++ bs " " ++ t) (SecHeaderFields n l)
| g_sec_fields_not p n k t l : G_part_dot p n -> k ~ "HEADER.FIELDS.NOT" -> G_header_list t l ->
    G_section_spec (p ++ k ++ bs " " ++ t) (SecHeaderFieldsNot n l)
| g_sec_text p n k : G_part_dot p n -> k ~ "TEXT" -> G_section_spec (p ++ k) (SecText n)
| g_sec_mime t n k : G_part t n -> k ~ "MIME" -> G_section_spec (t ++ bs "." ++ k) (SecMime n).
Inductive G_section : lang (option section) :=
| g_section t s : optional G_section_spec t s -> G_section (bs "[" ++ t ++ bs "]") s.
Inductive G_section_binary : lang (list N) :=
| g_section_binary_all : G_section_binary (bs "[]") []
| g_section_binary t n : G_part t n -> G_section_binary (bs "[" ++ t ++ bs "]") n.
Inductive G_partial : lang (N * N) :=
| g_partial t a u b : G_number t a -> G_nz_number u b ->
    G_partial (bs "<" ++ t ++ bs "." ++ u ++ bs ">") (a, b).
Definition fetch_words : list (bytes * item_name) :=
  [(bs "ENVELOPE", INEnvelope); (bs "FLAGS", INFlags); (bs "INTERNALDATE", INInternalDate);
   (bs "BODYSTRUCTURE", INBodyStructure); (bs "BODY", INBody); (bs "UID", INUid);
   (bs "RFC822.HEADER", INRfc822Header); (bs "RFC822.SIZE", INRfc822Size);
   (bs "RFC822.TEXT", INRfc822Text); (bs "RFC822", INRfc822)] ++
  when ext_condstore_qresync [(bs "MODSEQ", INModSeq)].
Inductive G_fetch_att : lang item_name :=
| g_att_word t i : word fetch_words t i -> G_fetch_att t i
| g_att_body k t s u p : k ~ "BODY" -> G_section t s -> optional G_partial u p ->
    G_fetch_att (k ++ t ++ u) (INBodyExt s p false)
| g_att_body_peek k t s u p : k ~ "BODY.PEEK" -> G_section t s -> optional G_partial u p ->
    G_fetch_att (k ++ t ++ u) (INBodyExt s p true)
| g_att_binary k t s u p : k ~ "BINARY" -> G_section_binary t s -> optional G_partial u p ->
    G_fetch_att (k ++ t ++ u) (INBinary s p false)
| g_att_binary_peek k t s u p : k ~ "BINARY.PEEK" -> G_section_binary t s ->
    optional G_partial u p -> G_fetch_att (k ++ t ++ u) (INBinary s p true)
| g_att_binary_size k t s : k ~ "BINARY.SIZE" -> G_section_binary t s ->
    G_fetch_att (k ++ t) (INBinarySize s).
Definition macro_table : list (bytes * macro) :=
  [(bs "ALL", MacroAll); (bs "FAST", MacroFast); (bs "FULL", MacroFull)].
Inductive G_macro_or_items : lang macro_or_items :=
| g_macro t m : word macro_table t m -> G_macro_or_items t (MIMacro m)
| g_item t i : G_fetch_att t i -> G_macro_or_items t (MIItems [i])
| g_items t l : in_parens (list_of (bs " ") G_fetch_att) t l -> G_macro_or_items t (MIItems l).

(** ** ID *)
Inductive G_id_param : lang (istring * nstring) :=
| g_id_param t k u v : G_string t k -> G_nstring u v -> G_id_param (t ++ bs " " ++ u) (k, v).
Inductive G_id_params : lang (option (list (istring * nstring))) :=
| g_id_nil t : G_nil t -> G_id_params t None
| g_id_list t l e : list_of (bs " ") G_id_param t l ->
    e = [] \/ (quirk_trailing_space_id = true /\ e = bs " ") ->
    G_id_params (bs "(" ++ t ++ e ++ bs ")") (Some l).

(** ** METADATA *)
Inductive G_entry_value : lang entry_value :=
| g_entry_value t e u v : G_astring t e -> G_nstring8 u v ->
    G_entry_value (t ++ bs " " ++ u) (mkEntryValue e v).
Definition G_entry_values : lang (list entry_value) := in_parens (sep_by (bs " ") G_entry_value).
Definition depth_table : list (bytes * depth) :=
  [(bs "0", DepthNull); (bs "1", DepthOne); (bs "infinity", DepthInfinity)].
Inductive G_getmetadata_option : lang get_metadata_option :=
| g_gm_maxsize k t n : k ~ "MAXSIZE " -> G_number t n -> G_getmetadata_option (k ++ t) (GMMaxSize n)
| g_gm_depth k t d : k ~ "DEPTH " -> word depth_table t d ->
    G_getmetadata_option (k ++ t) (GMDepth d).
Inductive G_entries : lang (list astring) :=
| g_entry t e : G_astring t e -> G_entries t [e]
| g_entries t l : in_parens (sep_by (bs " ") G_astring) t l -> G_entries t l.

(** ** Other parts of commands *)
Inductive G_quota_set : lang quota_set :=
| g_quota_set t r u n : G_resource t r -> G_number64 u n ->
    G_quota_set (t ++ bs " " ++ u) (mkQuotaSet r n).
Definition sort_key_table : list (bytes * sort_key) :=
  [(bs "ARRIVAL", SKArrival); (bs "CC", SKCc); (bs "DATE", SKDate); (bs "FROM", SKFrom);
   (bs "SIZE", SKSize); (bs "SUBJECT", SKSubject); (bs "TO", SKTo);
   (bs "DISPLAYFROM", SKDisplayFrom); (bs "DISPLAYTO", SKDisplayTo)].
Inductive G_sort_criterion : lang sort_criterion :=
| g_sort_plain t k : word sort_key_table t k -> G_sort_criterion t (mkSort false k)
| g_sort_reverse r t k : r ~ "REVERSE " -> word sort_key_table t k ->
    G_sort_criterion (r ++ t) (mkSort true k).
Inductive G_known_uids : lang (sequence_set * sequence_set) :=
| g_known_uids t a u b : G_sequence_set t a -> G_sequence_set u b ->
    G_known_uids (bs "(" ++ t ++ bs " " ++ u ++ bs ")") (a, b).
Inductive G_select_param : lang select_parameter :=
| g_sel_condstore t : t ~ "CONDSTORE" -> G_select_param t SPCondStore
| g_sel_qresync k tv v tm m ts s td d : k ~ "QRESYNC (" -> G_nz_number tv v -> G_nz_number64 tm m ->
    optional (after (bs " ") G_sequence_set) ts s -> optional (after (bs " ") G_known_uids) td d ->
    G_select_param (k ++ tv ++ bs " " ++ tm ++ ts ++ td ++ bs ")") (SPQResync v m s d).
(** The lists that only exist with CONDSTORE *)
Definition condstore_list {A} (L : lang A) : lang (list A) := fun t l =>
  (t = [] /\ l = []) \/ (ext_condstore_qresync = true /\ opt_list L t l).
Inductive G_fetch_modifier : lang fetch_modifier :=
| g_fm_changed k t n : k ~ "CHANGEDSINCE " -> G_nz_number64 t n ->
    G_fetch_modifier (k ++ t) (FMChangedSince n)
| g_fm_vanished t : t ~ "VANISHED" -> G_fetch_modifier t FMVanished.
Inductive G_store_modifier : lang store_modifier :=
| g_sm_unchanged k t n : k ~ "UNCHANGEDSINCE " -> G_number64 t n ->
    G_store_modifier (k ++ t) (SMUnchangedSince n).
Inductive G_store_type : lang store_type :=
| g_st_replace : G_store_type [] STReplace
| g_st_add : G_store_type (bs "+") STAdd
| g_st_remove : G_store_type (bs "-") STRemove.
Inductive G_silent : lang store_response :=
| g_answer : G_silent [] SRAnswer
| g_silent t : t ~ ".SILENT" -> G_silent t SRSilent.
Inductive G_store_flags : lang (list flag) :=
| g_sf_list t l : G_flag_list t l -> G_store_flags t l
| g_sf_plain t l : sep_by (bs " ") G_flag t l -> G_store_flags t l.
Inductive G_uid : lang bool :=
| g_no_uid : G_uid [] false
| g_uid t : t ~ "UID " -> G_uid t true.
Inductive G_message : lang lit_or_lit8 :=
| g_msg_literal t l : G_literal t l -> G_message t (LLiteral l)
| g_msg_literal8 t l : G_literal8 t l -> G_message t (LLiteral8 l).
(** [SP flag-list] in APPEND, optional *)
Definition G_opt_flags : lang (list flag) := fun t l =>
  (t = [] /\ l = []) \/ after (bs " ") G_flag_list t l.

(** ** Commands *)
Definition command_words : list (bytes * command_body) :=
  [(bs "CAPABILITY", CCapability); (bs "LOGOUT", CLogout); (bs "NOOP", CNoop); (bs "IDLE", CIdle);
   (bs "CHECK", CCheck); (bs "CLOSE", CClose); (bs "EXPUNGE", CExpunge); (bs "UNSELECT", CUnselect)] ++
  when ext_namespace [(bs "NAMESPACE", CNamespace)] ++
  when starttls [(bs "STARTTLS", CStartTls)].
Definition command_mailbox : list (bytes * (mailbox -> command_body)) :=
  [(bs "CREATE ", CCreate); (bs "DELETE ", CDelete); (bs "SUBSCRIBE ", CSubscribe);
   (bs "UNSUBSCRIBE ", CUnsubscribe); (bs "GETQUOTAROOT ", CGetQuotaRoot)].
Inductive G_command_body : lang command_body :=
| g_cmd_word t c : word command_words t c -> G_command_body t c
| g_cmd_mailbox k f t m : word command_mailbox k f -> G_mailbox t m -> G_command_body (k ++ t) (f m)
| g_cmd_id k t p : ext_id = true -> k ~ "ID " -> G_id_params t p -> G_command_body (k ++ t) (CId p)
| g_cmd_append k tm m tf fl td d t l : k ~ "APPEND " -> G_mailbox tm m -> G_opt_flags tf fl ->
    optional (after (bs " ") G_date_time) td d -> G_message t l ->
    G_command_body (k ++ tm ++ tf ++ td ++ bs " " ++ t) (CAppend m fl d l)
| g_cmd_examine k tm m t ps : k ~ "EXAMINE " -> G_mailbox tm m -> condstore_list G_select_param t ps ->
    G_command_body (k ++ tm ++ t) (CExamine m ps)
| g_cmd_select k tm m t ps : k ~ "SELECT " -> G_mailbox tm m -> condstore_list G_select_param t ps ->
    G_command_body (k ++ tm ++ t) (CSelect m ps)
| g_cmd_list k tm m t l : k ~ "LIST " -> G_mailbox tm m -> G_list_mailbox t l ->
    G_command_body (k ++ tm ++ bs " " ++ t) (CList m l)
| g_cmd_lsub k tm m t l : k ~ "LSUB " -> G_mailbox tm m -> G_list_mailbox t l ->
    G_command_body (k ++ tm ++ bs " " ++ t) (CLsub m l)
| g_cmd_rename k ta a tb b : k ~ "RENAME " -> G_mailbox ta a -> G_mailbox tb b ->
    G_command_body (k ++ ta ++ bs " " ++ tb) (CRename a b)
| g_cmd_status k tm m t l : k ~ "STATUS " -> G_mailbox tm m ->
    in_parens (list_of (bs " ") (word status_att_table)) t l ->
    G_command_body (k ++ tm ++ bs " " ++ t) (CStatus m l)
| g_cmd_enable k t l : k ~ "ENABLE " -> sep_by (bs " ") G_enable_name t l ->
    G_command_body (k ++ t) (CEnable l)
| g_cmd_compress k t : k ~ "COMPRESS " -> t ~ "DEFLATE" -> G_command_body (k ++ t) (CCompress Deflate)
| g_cmd_getquota k t a : k ~ "GETQUOTA " -> G_astring t a -> G_command_body (k ++ t) (CGetQuota a)
| g_cmd_setquota k tr r t l : k ~ "SETQUOTA " -> G_astring tr r ->
    in_parens (list_of (bs " ") G_quota_set) t l ->
    G_command_body (k ++ tr ++ bs " " ++ t) (CSetQuota r l)
| g_cmd_setmetadata k tm m t l : ext_metadata = true -> k ~ "SETMETADATA " -> G_mailbox tm m ->
    G_entry_values t l -> G_command_body (k ++ tm ++ bs " " ++ t) (CSetMetadata m l)
| g_cmd_getmetadata k to o tm m t l : ext_metadata = true -> k ~ "GETMETADATA" ->
    opt_list G_getmetadata_option to o -> G_mailbox tm m -> G_entries t l ->
    G_command_body (k ++ to ++ bs " " ++ tm ++ bs " " ++ t) (CGetMetadata o m l)
| g_cmd_login k tu u tp p : k ~ "LOGIN " -> G_astring tu u -> G_astring tp p ->
    G_command_body (k ++ tu ++ bs " " ++ tp) (CLogin u p)
| g_cmd_authenticate k t m : k ~ "AUTHENTICATE " -> G_auth_type t m ->
    G_command_body (k ++ t) (CAuthenticate m None)
| g_cmd_authenticate_ir k t m u p : k ~ "AUTHENTICATE " -> G_auth_type t m ->
    G_base64 u p \/ (u = bs "=" /\ p = []) ->
    G_command_body (k ++ t ++ bs " " ++ u) (CAuthenticate m (Some p))
| g_cmd_expunge_uid k t s : k ~ "UID EXPUNGE " -> G_sequence_set t s ->
    G_command_body (k ++ t) (CExpungeUid s)
| g_cmd_copy u uid k ts s tm m : G_uid u uid -> k ~ "COPY " -> G_sequence_set ts s -> G_mailbox tm m ->
    G_command_body (u ++ k ++ ts ++ bs " " ++ tm) (CCopy s m uid)
| g_cmd_move u uid k ts s tm m : G_uid u uid -> k ~ "MOVE " -> G_sequence_set ts s -> G_mailbox tm m ->
    G_command_body (u ++ k ++ ts ++ bs " " ++ tm) (CMove s m uid)
| g_cmd_fetch u uid k ts s ti i t ms : G_uid u uid -> k ~ "FETCH " -> G_sequence_set ts s ->
    G_macro_or_items ti i -> condstore_list G_fetch_modifier t ms ->
    G_command_body (u ++ k ++ ts ++ bs " " ++ ti ++ t) (CFetch s i uid ms)
| g_cmd_store u uid k ts s tm ms tk kind kf tr r t fl : G_uid u uid -> k ~ "STORE " ->
    G_sequence_set ts s -> condstore_list G_store_modifier tm ms -> G_store_type tk kind ->
    kf ~ "FLAGS" -> G_silent tr r -> G_store_flags t fl ->
    G_command_body (u ++ k ++ ts ++ tm ++ bs " " ++ tk ++ kf ++ tr ++ bs " " ++ t)
      (CStore s kind r fl uid ms)
| g_cmd_search u uid k t l : G_uid u uid -> k ~ "SEARCH " -> G_search_keys t l ->
    G_command_body (u ++ k ++ t) (CSearch None l uid)
| g_cmd_search_charset u uid k tc c t l : G_uid u uid -> k ~ "SEARCH CHARSET " -> G_charset tc c ->
    G_search_keys t l -> G_command_body (u ++ k ++ tc ++ bs " " ++ t) (CSearch (Some c) l uid)
| g_cmd_sort u uid k ts so tc c t l : G_uid u uid -> k ~ "SORT " ->
    in_parens (sep_by (bs " ") G_sort_criterion) ts so -> G_charset tc c -> G_search_keys t l ->
    G_command_body (u ++ k ++ ts ++ bs " " ++ tc ++ bs " " ++ t) (CSort so c l uid)
| g_cmd_thread u uid k ta a tc c t l : G_uid u uid -> k ~ "THREAD " -> G_thread_alg ta a ->
    G_charset tc c -> G_search_keys t l ->
    G_command_body (u ++ k ++ ta ++ bs " " ++ tc ++ bs " " ++ t) (CThread a c l uid).
(** command = tag SP body CRLF *)
Inductive G_command : lang command :=
| g_command tt tag t b e : G_tag tt tag -> G_command_body t b -> eol e ->
    G_command (tt ++ bs " " ++ t ++ e) (mkCommand tag b).

(** The answer to a SASL challenge; the end of IDLE *)
Inductive G_authenticate_data : lang authenticate_data :=
| g_ad_continue t p e : G_base64 t p -> eol e -> G_authenticate_data (t ++ e) (ADContinue p)
| g_ad_cancel e : eol e -> G_authenticate_data (bs "*" ++ e) ADCancel.
Inductive G_idle_done : lang unit :=
| g_idle_done k e : k ~ "DONE" -> eol e -> G_idle_done (k ++ e) tt.
(** ** Envelopes *)
Inductive G_address : lang address :=
| g_address z ta a tb b tc c td d :
    z = [] \/ (quirk_spaces_between_addresses = true /\ Forall (eq bSP) z) ->
    G_nstring ta a -> G_nstring tb b -> G_nstring tc c -> G_nstring td d ->
    G_address (z ++ bs "(" ++ ta ++ bs " " ++ tb ++ bs " " ++ tc ++ bs " " ++ td ++ bs ")")
      (mkAddress a b c d).
Inductive G_addresses : lang (list address) :=
| g_addresses_nil t : G_nil t -> G_addresses t []
| g_addresses t l : in_parens (at_least 1 G_address) t l -> G_addresses t l.
Inductive G_envelope : lang envelope :=
| g_envelope t1 v1 t2 v2 t3 v3 t4 v4 t5 v5 t6 v6 t7 v7 t8 v8 t9 v9 t10 v10 :
    G_nstring t1 v1 -> G_nstring t2 v2 ->
    G_addresses t3 v3 -> G_addresses t4 v4 -> G_addresses t5 v5 ->
    G_addresses t6 v6 -> G_addresses t7 v7 -> G_addresses t8 v8 ->
    G_nstring t9 v9 -> G_nstring t10 v10 ->
    G_envelope (bs "(" ++ t1 ++ bs " " ++ t2 ++ bs " " ++ t3 ++ bs " " ++ t4 ++ bs " " ++ t5
                  ++ bs " " ++ t6 ++ bs " " ++ t7 ++ bs " " ++ t8 ++ bs " " ++ t9 ++ bs " "
                  ++ t10 ++ bs ")")
      (mkEnvelope v1 v2 v3 v4 v5 v6 v7 v8 v9 v10).

(** ** Body structures *)
Inductive G_pair : lang (istring * istring) :=
| g_pair t a u b : G_string t a -> G_string u b -> G_pair (t ++ bs " " ++ u) (a, b).
Inductive G_body_params : lang (list (istring * istring)) :=
| g_params_nil t : G_nil t -> G_body_params t []
| g_params t l : in_parens (list_of (bs " ") G_pair) t l -> G_body_params t l.
Inductive G_body_enc : lang istring :=
| g_enc t s : G_string t s -> G_body_enc t s
| g_enc_nil t : quirk_body_fld_enc_nil_to_empty = true -> G_nil t -> G_body_enc t (IQuoted []).
Inductive G_octets : lang N :=
| g_octets t n : G_number t n -> G_octets t n
| g_octets_negative t n : quirk_rectify_numbers = true -> G_number t n ->
    G_octets (bs "-" ++ t) 0.
Inductive G_body_fields : lang basic_fields :=
| g_fields tp p ti i td d te e ts s : G_body_params tp p -> G_nstring ti i -> G_nstring td d ->
    G_body_enc te e -> G_octets ts s ->
    G_body_fields (tp ++ bs " " ++ ti ++ bs " " ++ td ++ bs " " ++ te ++ bs " " ++ ts)
      (mkBasic p i d e s).
(** Extension data; [d] bounds the nesting of lists. *)
Inductive G_body_extension : nat -> lang body_extension :=
| g_be_nstring d t n : G_nstring t n -> G_body_extension d t (BENString n)
| g_be_number d t n : G_number t n -> G_body_extension d t (BENumber n)
| g_be_list d t l : in_parens (sep_by (bs " ") (G_body_extension d)) t l ->
    G_body_extension (S d) t (BEList l).
Inductive G_body_dsp : lang (option (istring * list (istring * istring))) :=
| g_dsp_nil t : G_nil t -> G_body_dsp t None
| g_dsp ts s tp p : G_string ts s -> G_body_params tp p ->
    G_body_dsp (bs "(" ++ ts ++ bs " " ++ tp ++ bs ")") (Some (s, p)).
Inductive G_body_lang : lang (list istring) :=
| g_lang_nil t : G_nil t -> G_body_lang t []
| g_lang_one t s : G_string t s -> G_body_lang t [s]
| g_lang_list t l : in_parens (sep_by (bs " ") G_string) t l -> G_body_lang t l.
Inductive G_location : lang location :=
| g_location t l u e : G_nstring t l -> many (after (bs " ") (G_body_extension 7)) u e ->
    G_location (bs " " ++ t ++ u) (mkLocation l e).
Inductive G_language : lang language :=
| g_language t l u x : G_body_lang t l -> optional G_location u x ->
    G_language (bs " " ++ t ++ u) (mkLanguage l x).
Inductive G_disposition : lang disposition :=
| g_disposition t l u x : G_body_dsp t l -> optional G_language u x ->
    G_disposition (bs " " ++ t ++ u) (mkDisposition l x).
Inductive G_single_ext : lang single_ext :=
| g_single_ext t m u x : G_nstring t m -> optional G_disposition u x ->
    G_single_ext (t ++ u) (mkSingleExt m x).
Inductive G_multi_ext : lang multi_ext :=
| g_multi_ext t m u x : G_body_params t m -> optional G_disposition u x ->
    G_multi_ext (t ++ u) (mkMultiExt m x).
(** [d] bounds the nesting of multiparts; a message/rfc822 part starts counting anew. *)
Inductive G_body : nat -> lang body_structure :=
| g_body_basic d tt ty ts sub tb b tx x : G_string tt ty -> G_string ts sub ->
    G_body_fields tb b -> optional (after (bs " ") G_single_ext) tx x ->
    G_body d (bs "(" ++ tt ++ bs " " ++ ts ++ bs " " ++ tb ++ tx ++ bs ")")
      (BSSingle b (SFBasic ty sub) x)
| g_body_text d k ts sub tb b tn n tx x : k ~ """TEXT"" " -> G_string ts sub ->
    G_body_fields tb b -> G_number tn n -> optional (after (bs " ") G_single_ext) tx x ->
    G_body d (bs "(" ++ k ++ ts ++ bs " " ++ tb ++ bs " " ++ tn ++ tx ++ bs ")")
      (BSSingle b (SFText sub n) x)
| g_body_message d k tb b te e ti i tn n tx x : k ~ """MESSAGE"" ""RFC822"" " ->
    G_body_fields tb b -> G_envelope te e -> G_body 5 ti i -> G_number tn n ->
    optional (after (bs " ") G_single_ext) tx x ->
    G_body d (bs "(" ++ k ++ tb ++ bs " " ++ te ++ bs " " ++ ti ++ bs " " ++ tn ++ tx ++ bs ")")
      (BSSingle b (SFMessage e i n) x)
| g_body_multi d t l ts sub tx x : at_least 1 (G_body d) t l -> G_string ts sub ->
    optional (after (bs " ") G_multi_ext) tx x ->
    G_body (S d) (bs "(" ++ t ++ bs " " ++ ts ++ tx ++ bs ")") (BSMulti l sub x).

(** ** Fetch results *)
Inductive G_origin : lang N :=
| g_origin t n : G_number t n -> G_origin (bs "<" ++ t ++ bs ">") n.
Inductive G_msg_att : lang message_data_item :=
| g_ma_flags k t l : k ~ "FLAGS " -> in_parens (list_of (bs " ") G_flag_fetch) t l ->
    G_msg_att (k ++ t) (MDFlags l)
| g_ma_modseq k t n : ext_condstore_qresync = true -> k ~ "MODSEQ " ->
    in_parens G_nz_number64 t n -> G_msg_att (k ++ t) (MDModSeq n)
| g_ma_envelope k t e : k ~ "ENVELOPE " -> G_envelope t e -> G_msg_att (k ++ t) (MDEnvelope e)
| g_ma_date k t d : k ~ "INTERNALDATE " -> G_date_time t d -> G_msg_att (k ++ t) (MDInternalDate d)
| g_ma_header k t s : k ~ "RFC822.HEADER " -> G_nstring t s ->
    G_msg_att (k ++ t) (MDRfc822Header s)
| g_ma_text k t s : k ~ "RFC822.TEXT " -> G_nstring t s -> G_msg_att (k ++ t) (MDRfc822Text s)
| g_ma_size k t n : k ~ "RFC822.SIZE " -> G_number t n -> G_msg_att (k ++ t) (MDRfc822Size n)
| g_ma_rfc822 k t s : k ~ "RFC822 " -> G_nstring t s -> G_msg_att (k ++ t) (MDRfc822 s)
| g_ma_bodystructure k t b : k ~ "BODYSTRUCTURE " -> G_body 6 t b ->
    G_msg_att (k ++ t) (MDBodyStructure b)
| g_ma_body k t b : k ~ "BODY " -> G_body 6 t b -> G_msg_att (k ++ t) (MDBody b)
| g_ma_body_ext k t s u o v d : k ~ "BODY" -> G_section t s -> optional G_origin u o ->
    G_nstring v d -> G_msg_att (k ++ t ++ u ++ bs " " ++ v) (MDBodyExt s o d)
| g_ma_uid k t n : k ~ "UID " -> G_nz_number t n -> G_msg_att (k ++ t) (MDUid n)
| g_ma_binary k t s u v : k ~ "BINARY" -> G_section_binary t s -> G_nstring8 u v ->
    G_msg_att (k ++ t ++ bs " " ++ u) (MDBinary s v)
| g_ma_binary_size k t s u n : k ~ "BINARY.SIZE" -> G_section_binary t s -> G_number u n ->
    G_msg_att (k ++ t ++ bs " " ++ u) (MDBinarySize s n).

(** ** Data *)
Inductive G_delimiter : lang (option byte) :=
| g_delimiter t b : G_quoted_char t b -> G_delimiter t (Some b)
| g_delimiter_nil t : G_nil t -> G_delimiter t None.
Inductive G_namespace_ext : lang namespace_ext :=
| g_ns_ext t k u l : G_string t k -> in_parens (sep_by (bs " ") G_string) u l ->
    G_namespace_ext (bs " " ++ t ++ bs " " ++ u) (mkNsExt k l).
Inductive G_namespace_descr : lang namespace :=
| g_ns_descr tp p td d te e : G_string tp p -> G_delimiter td d -> many G_namespace_ext te e ->
    G_namespace_descr (bs "(" ++ tp ++ bs " " ++ td ++ te ++ bs ")") (mkNamespace p d e).
Inductive G_namespace : lang (list namespace) :=
| g_ns_nil t : G_nil t -> G_namespace t []
| g_ns t l : in_parens (at_least 1 G_namespace_descr) t l -> G_namespace t l.
(** One space; with the quirk one or more *)
Definition G_quota_space (t : bytes) : Prop :=
  t = bs " " \/ (quirk_excessive_space_quota_resource = true /\ some_of (eq bSP) t).
Inductive G_quota_get : lang quota_get :=
| g_quota_get tr r s1 tu u s2 tl l : G_resource tr r -> G_quota_space s1 -> G_number64 tu u ->
    G_quota_space s2 -> G_number64 tl l ->
    G_quota_get (tr ++ s1 ++ tu ++ s2 ++ tl) (mkQuotaGet r u l).
(** Threads; [d] bounds their nesting. *)
Inductive G_thread : nat -> lang thread :=
| g_thread_flat d t l : sep_by (bs " ") G_nz_number t l ->
    G_thread d (bs "(" ++ t ++ bs ")") (TMembers l None)
| g_thread_split d t l u a : sep_by (bs " ") G_nz_number t l -> at_least 2 (G_thread d) u a ->
    G_thread (S d) (bs "(" ++ t ++ bs " " ++ u ++ bs ")") (TMembers l (Some a))
| g_thread_nested d t a : at_least 2 (G_thread d) t a ->
    G_thread (S d) (bs "(" ++ t ++ bs ")") (TNested a).
Inductive G_modseq_result : lang (option N) :=
| g_no_modseq : G_modseq_result [] None
| g_modseq k t n : ext_condstore_qresync = true -> k ~ "MODSEQ " -> G_nz_number64 t n ->
    G_modseq_result (bs " (" ++ k ++ t ++ bs ")") (Some n).
(** A space that a quirk tolerates *)
Definition stray_space (quirk : bool) (t : bytes) : Prop :=
  t = [] \/ (quirk = true /\ t = bs " ").
Inductive G_capabilities : lang (list capability) :=
| g_capabilities k t l z : k ~ "CAPABILITY " -> sep_by (bs " ") G_capability t l ->
    stray_space quirk_trailing_space_capability z -> G_capabilities (k ++ t ++ z) l.
Inductive G_uid_element : lang uid_element :=
| g_ue_single t n : G_nz_number t n -> G_uid_element t (UESingle n)
| g_ue_range t a u b : G_nz_number t a -> G_nz_number u b ->
    G_uid_element (t ++ bs ":" ++ u) (UERange a b).
Definition G_uid_set : lang uid_set := sep_by (bs ",") G_uid_element.
Definition G_mailbox_list (k : bytes)
  (f : list flag_name_attribute -> option byte -> mailbox -> data) : lang data := fun t d =>
  exists k' tf fl td de tm m, same_letters k' k /\
    in_parens (list_of (bs " ") G_flag_name) tf fl /\ G_delimiter td de /\ G_mailbox tm m /\
    t = k' ++ tf ++ bs " " ++ td ++ bs " " ++ tm /\ d = f fl de m.
Inductive G_data : lang data :=
| g_data_capability t l : G_capabilities t l -> G_data t (DCapability l)
| g_data_flags k t l : k ~ "FLAGS " -> G_flag_list t l -> G_data (k ++ t) (DFlags l)
| g_data_list t d : G_mailbox_list (bs "LIST ") DList t d -> G_data t d
| g_data_lsub t d : G_mailbox_list (bs "LSUB ") DLsub t d -> G_data t d
| g_data_search k t l u m z : k ~ "SEARCH" -> many (after (bs " ") G_nz_number) t l ->
    G_modseq_result u m -> stray_space quirk_trailing_space_search z ->
    G_data (k ++ t ++ u ++ z) (DSearch l m)
| g_data_sort k t l u m : k ~ "SORT" -> many (after (bs " ") G_nz_number) t l ->
    G_modseq_result u m -> G_data (k ++ t ++ u) (DSort l m)
| g_data_thread_none k : k ~ "THREAD" -> G_data k (DThread [])
| g_data_thread k t l : k ~ "THREAD " -> at_least 1 (G_thread 7) t l -> G_data (k ++ t) (DThread l)
| g_data_status k tm m t l z : k ~ "STATUS " -> G_mailbox tm m ->
    in_parens (list_of (bs " ") G_status_val) t l -> stray_space quirk_trailing_space_status z ->
    G_data (k ++ tm ++ bs " " ++ t ++ z) (DStatus m l)
| g_data_metadata_values k tm m t l : ext_metadata = true -> k ~ "METADATA " -> G_mailbox tm m ->
    G_entry_values t l -> G_data (k ++ tm ++ bs " " ++ t) (DMetadata m (MRWithValues l))
| g_data_metadata k tm m t l : ext_metadata = true -> k ~ "METADATA " -> G_mailbox tm m ->
    sep_by (bs " ") G_astring t l ->
    G_data (k ++ tm ++ bs " " ++ t) (DMetadata m (MRWithoutValues l))
| g_data_namespace k ta a tb b tc c : ext_namespace = true -> k ~ "NAMESPACE " ->
    G_namespace ta a -> G_namespace tb b -> G_namespace tc c ->
    G_data (k ++ ta ++ bs " " ++ tb ++ bs " " ++ tc) (DNamespace a b c)
| g_data_exists t n k : G_number t n -> k ~ " EXISTS" -> G_data (t ++ k) (DExists n)
| g_data_recent t n k : G_number t n -> k ~ " RECENT" -> G_data (t ++ k) (DRecent n)
| g_data_expunge t n k : G_nz_number t n -> k ~ " EXPUNGE" -> G_data (t ++ k) (DExpunge n)
| g_data_fetch t n k u l : G_nz_number t n -> k ~ " FETCH " ->
    in_parens (sep_by (bs " ") G_msg_att) u l -> G_data (t ++ k ++ u) (DFetch n l)
| g_data_vanished k t s : ext_condstore_qresync = true -> k ~ "VANISHED" -> G_sequence_set t s ->
    G_data (k ++ bs " " ++ t) (DVanished false s)
| g_data_vanished_earlier k t s : ext_condstore_qresync = true -> k ~ "VANISHED (EARLIER)" ->
    G_sequence_set t s -> G_data (k ++ bs " " ++ t) (DVanished true s)
| g_data_quotaroot k tm m t l : k ~ "QUOTAROOT " -> G_mailbox tm m ->
    many (after (bs " ") G_astring) t l -> G_data (k ++ tm ++ t) (DQuotaRoot m l)
| g_data_quota k tr r t l : k ~ "QUOTA " -> G_astring tr r ->
    in_parens (sep_by (bs " ") G_quota_get) t l -> G_data (k ++ tr ++ bs " " ++ t) (DQuota r l)
| g_data_enabled k t l : k ~ "ENABLED" -> many (after (bs " ") G_enable_name) t l ->
    G_data (k ++ t) (DEnabled l)
| g_data_id k t p : ext_id = true -> k ~ "ID " -> G_id_params t p -> G_data (k ++ t) (DId p).

(** ** Response codes and human-readable text *)
Definition code_words : list (bytes * code) :=
  [(bs "ALERT", CdAlert); (bs "PARSE", CdParse); (bs "READ-ONLY", CdReadOnly);
   (bs "READ-WRITE", CdReadWrite); (bs "TRYCREATE", CdTryCreate);
   (bs "COMPRESSIONACTIVE", CdCompressionActive); (bs "OVERQUOTA", CdOverQuota);
   (bs "TOOBIG", CdTooBig); (bs "UNKNOWN-CTE", CdUnknownCte);
   (bs "UIDNOTSTICKY", CdUidNotSticky); (bs "BADCHARSET", CdBadCharset [])] ++
  when ext_condstore_qresync [(bs "NOMODSEQ", CdNoModSeq); (bs "CLOSED", CdClosed)] ++
  when ext_metadata [(bs "METADATA TOOMANY", CdMetadata MCTooMany);
                     (bs "METADATA NOPRIVATE", CdMetadata MCNoPrivate)].
Definition code_numbers : list (bytes * (lang N * (N -> code))) :=
  [(bs "UIDNEXT ", (G_nz_number, CdUidNext)); (bs "UIDVALIDITY ", (G_nz_number, CdUidValidity));
   (bs "UNSEEN ", (G_nz_number, CdUnseen))] ++
  when ext_condstore_qresync [(bs "HIGHESTMODSEQ ", (G_nz_number64, CdHighestModSeq))] ++
  when ext_metadata
    [(bs "METADATA LONGENTRIES ", (G_number, fun n => CdMetadata (MCLongEntries n)));
     (bs "METADATA MAXSIZE ", (G_number, fun n => CdMetadata (MCMaxSize n)))].
Inductive G_known_code : lang code :=
| g_code_word t c : word code_words t c -> G_known_code t c
| g_code_number k L f t n : word code_numbers k (L, f) -> L t n -> G_known_code (k ++ t) (f n)
| g_code_badcharset k t l : k ~ "BADCHARSET " -> in_parens (sep_by (bs " ") G_charset) t l ->
    G_known_code (k ++ t) (CdBadCharset l)
| g_code_capability t l : G_capabilities t l -> G_known_code t (CdCapability l)
| g_code_permanentflags k t l : k ~ "PERMANENTFLAGS " ->
    in_parens (list_of (bs " ") G_flag_perm) t l -> G_known_code (k ++ t) (CdPermanentFlags l)
| g_code_appenduid k tv v tu u : k ~ "APPENDUID " -> G_nz_number tv v -> G_nz_number tu u ->
    G_known_code (k ++ tv ++ bs " " ++ tu) (CdAppendUid v u)
| g_code_copyuid k tv v ts s td d : k ~ "COPYUID " -> G_nz_number tv v -> G_uid_set ts s ->
    G_uid_set td d -> G_known_code (k ++ tv ++ bs " " ++ ts ++ bs " " ++ td) (CdCopyUid v s d)
| g_code_modified k t s : ext_condstore_qresync = true -> k ~ "MODIFIED " -> G_sequence_set t s ->
    G_known_code (k ++ t) (CdModified s).
(** What a code may consist of that is not known *)
Definition CODE_CHAR (b : byte) : Prop := b <> "]"%byte /\ b <> bCR /\ b <> bLF.
(** resp-text = ["[" resp-text-code "]" SP] text. A text does not start with a bracket. With
    quirk_missing_text, the text after a code may be missing. An unknown code is one that leaves
    no way to read the text as a known code. *)
Inductive G_text_after_code : lang bytes :=
| g_tac_text t : some_of TEXT_CHAR t -> G_text_after_code (bs " " ++ t) t
| g_tac_missing : quirk_missing_text = true -> G_text_after_code [] (bs "...").
Inductive G_resp_text : lang (option code * bytes) :=
| g_rt_text t : some_of TEXT_CHAR t -> (forall u, t <> bs "[" ++ u) -> G_resp_text t (None, t)
| g_rt_code t c u x : G_known_code t c -> G_text_after_code u x ->
    G_resp_text (bs "[" ++ t ++ bs "]" ++ u) (Some c, x)
| g_rt_other t u x : many_of CODE_CHAR t -> G_text_after_code u x ->
    (forall t' u' c, t ++ bs "]" ++ u = t' ++ bs "]" ++ u' -> ~ G_known_code t' c) ->
    G_resp_text (bs "[" ++ t ++ bs "]" ++ u) (Some (CdOther t), x).

(** ** Greetings and responses *)
Definition greeting_table : list (bytes * greeting_kind) :=
  [(bs "OK ", GKOk); (bs "PREAUTH ", GKPreAuth); (bs "BYE ", GKBye)].
Inductive G_greeting : lang greeting :=
| g_greeting k kind t c x e : word greeting_table k kind -> G_resp_text t (c, x) -> eol e ->
    G_greeting (bs "* " ++ k ++ t ++ e) (mkGreeting kind c x).
Definition status_table : list (bytes * status_kind) :=
  [(bs "OK ", SKOk); (bs "NO ", SKNo); (bs "BAD ", SKBad)].
Inductive G_status_body : lang status_body :=
| g_status_body k kind t c x : word status_table k kind -> G_resp_text t (c, x) ->
    G_status_body (k ++ t) (mkStatusBody kind c x).
Inductive G_response : lang response :=
(** A text that is base64 is read as such. *)
| g_rsp_continue t c x e : G_resp_text t (c, x) -> (forall p, ~ base64 p t) -> eol e ->
    G_response (bs "+ " ++ t ++ e) (RContinue (CRBasic c x))
| g_rsp_base64 t p e : G_base64 t p -> eol e ->
    G_response (bs "+ " ++ t ++ e) (RContinue (CRBase64 p))
| g_rsp_empty e : quirk_empty_continue_req = true -> eol e ->
    G_response (bs "+" ++ e) (RContinue (CRBasic None (bs "...")))
| g_rsp_data t d e : G_data t d -> eol e -> G_response (bs "* " ++ t ++ e) (RData d)
| g_rsp_untagged t b e : G_status_body t b -> eol e ->
    G_response (bs "* " ++ t ++ e) (RStatus (StUntagged b))
| g_rsp_tagged tt tag t b e : G_tag tt tag -> G_status_body t b -> eol e ->
    G_response (tt ++ bs " " ++ t ++ e) (RStatus (StTagged tag b))
| g_rsp_bye k t c x e : k ~ "BYE " -> G_resp_text t (c, x) -> eol e ->
    G_response (bs "* " ++ k ++ t ++ e) (RStatus (StBye c x)).
End Tokens.
