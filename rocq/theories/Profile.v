(** The decoders in both kinds of builds.

    In a build with debug assertions [T::unvalidated(x)] checks [x] and panics if it is not
    valid; in a release build it does not check (imap-types/src/core.rs:163-169, 313-319,
    806-812, 1107-1113, 1287-1293, 1386-1393, 1566-1573, mailbox.rs:54-60,
    datetime.rs:47-52, 117-122). The parsers of ParseCore.v to ParseResp.v are those of a debug
    build. Here are the same parsers for either build: the parsers that construct a value in
    this way, and all that use them, with [b_] for [p_]. The others do not depend on the
    build. [unwrap] panics in both. *)

From Verif Require Import Bytes Dec Features Nom Types Utf8 Conv Base64 Date ParseCore ParseBody
  ParseCmd ParseResp Decode.

(** [cfg!(debug_assertions)] *)
Class build := { debug_build : bool }.
Definition debug : build := {| debug_build := true |}.
Definition release : build := {| debug_build := false |}.

Section Build.
Context {F : features} {B : build}.

(** [T::unvalidated(x)]: [None] is the panic of [T::validate(&x).unwrap()] *)
Definition unvalidated {A} (ok : A -> bool) (a : A) : option A :=
  if debug_build then (if ok a then Some a else None) else Some a.
(** [T::unvalidated(from_utf8(s).unwrap())] *)
Definition b_str_of (ok : bytes -> bool) (s : bytes) : option bytes :=
  if utf8_ok s then unvalidated ok s else None.
Definition b_validated (ok : bytes -> bool) (p : parser bytes) : parser bytes :=
  expect p (b_str_of ok).
(** [Vec1::unvalidated], [Vec2::unvalidated] (imap-types/src/core.rs:1566-1573); [vec1] is
    [Vec1::try_from(..).unwrap()] *)
Definition b_vecn {A} (n : nat) (p : parser (list A)) : parser (list A) :=
  expect p (unvalidated (fun l => Nat.leb n (length l))).
Definition b_vec1 {A} (p : parser (list A)) : parser (list A) := b_vecn 1 p.
Definition b_vec2 {A} (p : parser (list A)) : parser (list A) := b_vecn 2 p.

(** ** ParseCore.v *)

(* core.rs:89-109 *)
Definition b_quoted : parser bytes :=
  dquote ;;;
  s <- expect (escaped is_any_text_char_except_quoted_specials bBS is_quoted_specials)
         (fun s => if utf8_ok s then Some s else None) ;;
  dquote ;;;
  expect (ret (unescape_quoted s)) (unvalidated quoted_ok).
(* core.rs:75-83 *)
Definition b_string : parser istring :=
  alt [pmap IQuoted b_quoted; gate ext_utf8 (pmap IQuotedUtf8 p_quoted_utf8);
       pmap ILiteral p_literal].
Definition b_quoted_char : parser byte :=
  expect
    (alt [expect (take_while_m_n 1 1 is_any_text_char_except_quoted_specials) one_byte;
          expect (tg "\" ;;; take_while_m_n 1 1 is_quoted_specials) one_byte])
    (unvalidated quoted_char_ok).
(* core.rs:200-214 *)
Definition b_astring : parser astring :=
  alt [pmap AAtom (b_validated atom_ext_ok (take_while1 is_astring_char));
       pmap AString b_string].
(* core.rs:217-231 *)
Definition b_atom : parser atom_t := b_validated atom_ok (take_while1 is_atom_char).
Definition b_nstring : parser nstring := alt [pmap Some b_string; value None p_nil].
(* core.rs:252-259 *)
Definition b_text : parser bytes := b_validated text_ok (take_while1 is_text_char).
(* core.rs:286-288 *)
Definition b_charset : parser charset :=
  alt [pmap CharsetAtom b_atom; pmap CharsetQuoted b_quoted].
(* core.rs:293-300 *)
Definition b_tag_imap : parser bytes := b_validated tag_ok (take_while1 is_tag_char).
(* sequence.rs:34-46 *)
Definition b_sequence_set : parser sequence_set :=
  b_vec1 (sep_list1 (tg ",") (alt [p_seq_range; pmap SSingle p_seq_number])).
(* mailbox.rs:37-51 *)
Definition b_list_mailbox : parser list_mailbox :=
  alt [pmap LMToken (b_validated list_char_string_ok (take_while1 is_list_char));
       pmap LMString b_string].
(* mailbox.rs:62-64 *)
Definition b_mailbox : parser mailbox := expect b_astring mailbox_from.
(* flag.rs:25-30 *)
Definition b_flag : parser flag :=
  alt [pmap flag_system (char bBS ;;; b_atom); pmap FKeyword b_atom].
(* flag.rs:54-56 *)
Definition b_flag_list : parser (list flag) :=
  delimited (tg "(") (sep_list0 sp b_flag) (tg ")").
(* flag.rs:59-67 *)
Definition b_flag_fetch : parser flag_fetch := fun i =>
  match recognize (char bBS ;;; b_atom) i with
  | ROk r s => if eqi s (bs "\recent") then ROk r FFRecent else pmap FFFlag b_flag i
  | RPanic => RPanic
  | _ => pmap FFFlag b_flag i
  end.
(* flag.rs:70-75 *)
Definition b_flag_perm : parser flag_perm :=
  alt [value FPAsterisk (tg "\*"); pmap FPFlag b_flag].
(* flag.rs:84-100 *)
Definition b_mbx_list_flags : parser (list flag_name_attribute) :=
  sep_list1 sp (pmap flag_name_attribute_from (char bBS ;;; b_atom)).
(* datetime.rs:29-38; NaiveDate::unvalidated panics on a year > 9999 in debug builds *)
Definition b_date_text : parser (option naive_date) :=
  d <- p_digit_1_2 ;; tg "-" ;;; m <- p_date_month ;; tg "-" ;;; y <- p_digit_4 ;;
  match from_ymd_opt y m d with
  | None => ret None
  | Some dt => expect (ret (Some dt)) (unvalidated (fun _ => N.leb y 9999))
  end.
(* datetime.rs:22-24 *)
Definition b_date_opt : parser (option naive_date) :=
  alt [b_date_text; delimited dquote b_date_text dquote].
(* the [map_opt(date, |date| date)] of search.rs *)
Definition b_date : parser naive_date := map_res b_date_opt (fun o => o).
(* datetime.rs:101-140; [from_local_datetime] of a fixed offset is always [Single];
   DateTime::unvalidated panics on a bad value in debug builds *)
Definition b_date_time : parser date_time :=
  dquote ;;;
  d <- p_date_day_fixed ;; tg "-" ;;; m <- p_date_month ;; tg "-" ;;; y <- p_digit_4 ;;
  sp ;;; t <- p_time ;; sp ;;; z <- p_zone ;;
  dquote ;;;
  match from_ymd_opt y m d, t, z with
  | Some date, Some (hh, mm, ss), Some o =>
    expect (ret (mkDateTime date hh mm ss o))
      (unvalidated (fun _ => N.leb y 9999 && Z.eqb (Z.rem o 60) 0)%bool)
  | _, _, _ => pfail
  end.
(* condstore_qresync.rs:98-103 *)
Definition b_attr_flag : parser attribute_flag :=
  alt [pmap attribute_flag_system (tg "\\" ;;; b_atom); pmap AFKeyword b_atom].
(* condstore_qresync.rs:84-86 *)
Definition b_entry_flag_name : parser attribute_flag :=
  delimited (tag_no_case (bDQ :: bs "/flags/")) b_attr_flag (char bDQ).
(* condstore_qresync.rs:62-64 *)
Definition b_search_modseq_ext : parser (attribute_flag * entry_type_req) :=
  sp ;;; a <- b_entry_flag_name ;; sp ;;; t <- p_entry_type_req ;; ret (a, t).
(* condstore_qresync.rs:50-57 *)
Definition b_search_modsequence : parser search_key :=
  kw "MODSEQ" ;;; e <- opt b_search_modseq_ext ;; sp ;;; n <- p_mod_sequence_valzer ;;
  ret (KModSequence e n).
(** ** ParseBody.v *)

(* envelope.rs:180-205 *)
Definition b_address : parser address :=
  (if quirk_spaces_between_addresses then many0 sp ;;; ret tt else ret tt) ;;;
  tg "(" ;;;
  name <- b_nstring ;; sp ;;; adl <- b_nstring ;; sp ;;; mb <- b_nstring ;; sp ;;;
  host <- b_nstring ;;
  tg ")" ;;;
  ret (mkAddress name adl mb host).
(* envelope.rs:115-160: env_from, env_sender, env_reply_to, env_to, env_cc, env_bcc *)
Definition b_addresses : parser (list address) :=
  alt [delimited (tg "(") (many1 b_address) (tg ")"); value [] p_nil].
(* envelope.rs:33-99 *)
Definition b_envelope : parser envelope :=
  tg "(" ;;;
  date <- b_nstring ;; sp ;;; subject <- b_nstring ;; sp ;;;
  from <- b_addresses ;; sp ;;; sender <- b_addresses ;; sp ;;;
  reply_to <- b_addresses ;; sp ;;; to <- b_addresses ;; sp ;;;
  cc <- b_addresses ;; sp ;;; bcc <- b_addresses ;; sp ;;;
  in_reply_to <- b_nstring ;; sp ;;; message_id <- b_nstring ;;
  tg ")" ;;;
  ret (mkEnvelope date subject from sender reply_to to cc bcc in_reply_to message_id).
(* body.rs:219-236 *)
Definition b_pair : parser (istring * istring) :=
  k <- b_string ;; sp ;;; v <- b_string ;; ret (k, v).
Definition b_body_fld_param : parser (list (istring * istring)) :=
  alt [delimited (tg "(") (sep_list0 sp b_pair) (tg ")"); value [] p_nil].
(* body.rs:272-281 *)
Definition b_body_fld_enc : parser istring :=
  if quirk_body_fld_enc_nil_to_empty
  then pmap (fun o => match o with Some s => s | None => IQuoted [] end) b_nstring
  else b_string.
(* body.rs:185-216 *)
Definition b_body_fields : parser basic_fields :=
  params <- b_body_fld_param ;; sp ;;; id <- b_nstring ;; sp ;;; desc <- b_nstring ;; sp ;;;
  enc <- b_body_fld_enc ;; sp ;;; size <- p_body_fld_octets ;;
  ret (mkBasic params id desc enc size).
(* body.rs:416-438; [n] is the remaining recursion *)
Fixpoint b_body_extension (n : nat) : parser body_extension :=
  match n with
  | O => pfail
  | S n' =>
    alt [pmap BENString b_nstring; pmap BENumber p_number;
         pmap BEList (b_vec1 (delimited (tg "(") (sep_list1 sp (b_body_extension n')) (tg ")")))]
  end.
(* body.rs:363-375 *)
Definition b_body_fld_dsp : parser (option (istring * list (istring * istring))) :=
  alt [delimited (tg "(")
         (s <- b_string ;; sp ;;; ps <- b_body_fld_param ;; ret (Some (s, ps))) (tg ")");
       value None p_nil].
(* body.rs:380-388 *)
Definition b_body_fld_lang : parser (list istring) :=
  alt [pmap (fun o => match o with Some s => [s] | None => [] end) b_nstring;
       delimited (tg "(") (sep_list1 sp b_string) (tg ")")].
(* body.rs:334-350, 497-513: the part shared by body_ext_1part and body_ext_mpart *)
Definition b_location : parser location :=
  sp ;;; l <- b_nstring ;; es <- many0 (sp ;;; b_body_extension 8) ;; ret (mkLocation l es).
Definition b_language : parser language :=
  sp ;;; l <- b_body_fld_lang ;; t <- opt b_location ;; ret (mkLanguage l t).
Definition b_disposition : parser disposition :=
  sp ;;; d <- b_body_fld_dsp ;; t <- opt b_language ;; ret (mkDisposition d t).
(* body.rs:324-354 *)
Definition b_body_ext_1part : parser single_ext :=
  m <- b_nstring ;; t <- opt b_disposition ;; ret (mkSingleExt m t).
(* body.rs:487-520 *)
Definition b_body_ext_mpart : parser multi_ext :=
  ps <- b_body_fld_param ;; t <- opt b_disposition ;; ret (mkMultiExt ps t).
(* body.rs:94-110, 542-556 *)
Definition b_body_type_basic : parser (basic_fields * specific_fields) :=
  ty <- b_string ;; sp ;;; sub <- b_string ;; sp ;;; b <- b_body_fields ;;
  ret (b, SFBasic ty sub).
Definition b_media_text : parser istring := kw """TEXT"" " ;;; b_string.
Definition b_body_type_text : parser (basic_fields * specific_fields) :=
  sub <- b_media_text ;; sp ;;; b <- b_body_fields ;; sp ;;; n <- p_number ;;
  ret (b, SFText sub n).
(** The parsers of body.rs:33-160 and 446-482 are mutually recursive. The multipart
    parser decrements the recursion limit; the message/rfc822 parser resets it to 8
    (body.rs:73), so nesting is only bounded by the input. [pb] stands for the parser
    of nested bodies, by remaining recursion. *)
(* body.rs:119-160, called with the literal limit 8 (hence not 0) *)
Definition b_body_type_msg (pb : nat -> parser body_structure)
  : parser (basic_fields * specific_fields) :=
  p_media_message ;;; sp ;;; b <- b_body_fields ;; sp ;;; e <- b_envelope ;; sp ;;;
  s <- pb 7%nat ;; sp ;;; n <- p_number ;;
  ret (b, SFMessage e s n).
(* body.rs:62-90 *)
Definition b_body_type_1part (pb : nat -> parser body_structure) (n : nat)
  : parser body_structure :=
  match n with
  | O => pfail
  | S _ =>
    ' (b, s) <- alt [b_body_type_msg pb; b_body_type_text; b_body_type_basic] ;;
    x <- opt (sp ;;; b_body_ext_1part) ;;
    ret (BSSingle b s x)
  end.
(* body.rs:446-482 *)
Definition b_body_type_mpart (pb : nat -> parser body_structure) (n : nat)
  : parser body_structure :=
  match n with
  | O => pfail
  | S _ =>
    bodies <- vec1 (many1 (pb n)) ;; sp ;;; sub <- b_string ;;
    x <- opt (sp ;;; b_body_ext_mpart) ;;
    ret (BSMulti bodies sub x)
  end.
(* body.rs:33-55; [fuel] bounds the nesting depth of the call stack and is never
   exhausted when it exceeds the input length (ParseFacts) *)
Fixpoint b_body_f (fuel n : nat) : parser body_structure :=
  match fuel with
  | O => fun _ => RPanic
  | S fuel' =>
    match n with
    | O => pfail
    | S n' =>
      delimited (tg "(")
        (alt [b_body_type_1part (b_body_f fuel') n'; b_body_type_mpart (b_body_f fuel') n'])
        (tg ")")
    end
  end.
(* body.rs:27-31 *)
Definition b_body (n : nat) : parser body_structure := fun i => b_body_f (S (length i)) n i.
(* fetch.rs:348-350, 339-344 *)
Definition b_header_list : parser (list astring) :=
  b_vec1 (delimited (tg "(") (sep_list1 sp b_astring) (tg ")")).
(* fetch.rs:324-326 *)
Definition b_section_part : parser (list N) := b_vec1 (sep_list1 (tg ".") p_nz_number).
(* fetch.rs:305-318 *)
Definition b_section_msgtext : parser part_specifier :=
  alt [kw "HEADER.FIELDS.NOT" ;;; sp ;;; pmap PSHeaderFieldsNot b_header_list;
       kw "HEADER.FIELDS" ;;; sp ;;; pmap PSHeaderFields b_header_list;
       value PSHeader (kw "HEADER"); value PSText (kw "TEXT")].
(* fetch.rs:331-336 *)
Definition b_section_text : parser part_specifier :=
  alt [b_section_msgtext; value PSMime (kw "MIME")].
Definition b_section_spec : parser section :=
  alt [expect b_section_msgtext section_top;
       n <- b_section_part ;; o <- opt (tg "." ;;; b_section_text) ;; ret (section_sub n o)].
(* fetch.rs:263-265 *)
Definition b_section : parser (option section) := delimited (tg "[") (opt b_section_spec) (tg "]").
(* extensions/binary.rs:99-108 *)
Definition b_section_binary : parser (list N) :=
  delimited (tg "[") (pmap dflt (opt b_section_part)) (tg "]").
(* fetch.rs:43-119 *)
Definition b_fetch_att : parser item_name :=
  alt [value INEnvelope (kw "ENVELOPE"); value INFlags (kw "FLAGS");
       value INInternalDate (kw "INTERNALDATE"); value INBodyStructure (kw "BODYSTRUCTURE");
       (kw "BODY.PEEK" ;;; s <- b_section ;; p <- opt p_partial ;; ret (INBodyExt s p true));
       (kw "BODY" ;;; s <- b_section ;; p <- opt p_partial ;; ret (INBodyExt s p false));
       (kw "BINARY.PEEK" ;;; s <- b_section_binary ;; p <- opt p_partial ;;
          ret (INBinary s p true));
       (kw "BINARY" ;;; s <- b_section_binary ;; p <- opt p_partial ;;
          ret (INBinary s p false));
       (kw "BINARY.SIZE" ;;; s <- b_section_binary ;; ret (INBinarySize s));
       value INBody (kw "BODY"); value INUid (kw "UID");
       value INRfc822Header (kw "RFC822.HEADER"); value INRfc822Size (kw "RFC822.SIZE");
       value INRfc822Text (kw "RFC822.TEXT"); value INRfc822 (kw "RFC822");
       gate ext_condstore_qresync (value INModSeq (kw "MODSEQ"))].
(* fetch.rs:142-172 *)
Definition b_msg_att_dynamic : parser message_data_item :=
  alt [pmap (fun o => MDFlags (dflt o))
         (kw "FLAGS " ;;;
          delimited (char "("%byte) (opt (sep_list1 sp b_flag_fetch)) (char ")"%byte));
       gate ext_condstore_qresync
         (pmap MDModSeq
            (kw "MODSEQ " ;;;
             delimited (char "("%byte) p_mod_sequence_value (char ")"%byte)))].
(* fetch.rs:183-253 and extensions/metadata.rs:99-104 *)
Definition b_nstring8 : parser nstring8 :=
  alt [pmap N8NString b_nstring; pmap N8Literal8 p_literal8].
Definition b_msg_att_static : parser message_data_item :=
  alt [pmap MDEnvelope (kw "ENVELOPE " ;;; b_envelope);
       pmap MDInternalDate (kw "INTERNALDATE " ;;; b_date_time);
       pmap MDRfc822Header (kw "RFC822.HEADER " ;;; b_nstring);
       pmap MDRfc822Text (kw "RFC822.TEXT " ;;; b_nstring);
       pmap MDRfc822Size (kw "RFC822.SIZE " ;;; p_number);
       pmap MDRfc822 (kw "RFC822 " ;;; b_nstring);
       pmap MDBodyStructure (kw "BODYSTRUCTURE " ;;; b_body 8);
       pmap MDBody (kw "BODY " ;;; b_body 8);
       (kw "BODY" ;;; s <- b_section ;; o <- opt (delimited (tg "<") p_number (tg ">")) ;;
          sp ;;; d <- b_nstring ;; ret (MDBodyExt s o d));
       pmap MDUid (kw "UID " ;;; p_nz_number);
       (kw "BINARY" ;;; s <- b_section_binary ;; sp ;;; v <- b_nstring8 ;; ret (MDBinary s v));
       (kw "BINARY.SIZE" ;;; s <- b_section_binary ;; sp ;;; n <- p_number ;;
          ret (MDBinarySize s n))].
(* fetch.rs:126-135 *)
Definition b_msg_att : parser (list message_data_item) :=
  delimited (tg "(") (b_vec1 (sep_list1 sp (alt [b_msg_att_dynamic; b_msg_att_static]))) (tg ")").
(* search.rs:103-228; the two nested [alt]s are one list *)
Fixpoint b_search_key (n : nat) : parser search_key :=
  match n with
  | O => pfail
  | S n' =>
    alt [value KAll (kw "ALL"); value KAnswered (kw "ANSWERED");
         pmap KBcc (kw "BCC" ;;; sp ;;; b_astring);
         pmap KBefore (kw "BEFORE" ;;; sp ;;; b_date);
         pmap KBody (kw "BODY" ;;; sp ;;; b_astring);
         pmap KCc (kw "CC" ;;; sp ;;; b_astring);
         value KDeleted (kw "DELETED"); value KFlagged (kw "FLAGGED");
         pmap KFrom (kw "FROM" ;;; sp ;;; b_astring);
         pmap KKeyword (kw "KEYWORD" ;;; sp ;;; b_atom);
         value KNew (kw "NEW"); value KOld (kw "OLD");
         pmap KOn (kw "ON" ;;; sp ;;; b_date);
         value KRecent (kw "RECENT"); value KSeen (kw "SEEN");
         pmap KSince (kw "SINCE" ;;; sp ;;; b_date);
         pmap KSubject (kw "SUBJECT" ;;; sp ;;; b_astring);
         pmap KText (kw "TEXT" ;;; sp ;;; b_astring);
         pmap KTo (kw "TO" ;;; sp ;;; b_astring);
         value KUnanswered (kw "UNANSWERED"); value KUndeleted (kw "UNDELETED");
         value KUnflagged (kw "UNFLAGGED");
         pmap KUnkeyword (kw "UNKEYWORD" ;;; sp ;;; b_atom);
         value KUnseen (kw "UNSEEN"); value KDraft (kw "DRAFT");
         (kw "HEADER" ;;; sp ;;; k <- b_astring ;; sp ;;; v <- b_astring ;; ret (KHeader k v));
         pmap KLarger (kw "LARGER" ;;; sp ;;; p_number);
         pmap KNot (kw "NOT" ;;; sp ;;; b_search_key n');
         (kw "OR" ;;; sp ;;; a <- b_search_key n' ;; sp ;;; b <- b_search_key n' ;;
            ret (KOr a b));
         pmap KSentBefore (kw "SENTBEFORE" ;;; sp ;;; b_date);
         pmap KSentOn (kw "SENTON" ;;; sp ;;; b_date);
         pmap KSentSince (kw "SENTSINCE" ;;; sp ;;; b_date);
         pmap KSmaller (kw "SMALLER" ;;; sp ;;; p_number);
         pmap KUid (kw "UID" ;;; sp ;;; b_sequence_set);
         value KUndraft (kw "UNDRAFT");
         gate ext_condstore_qresync b_search_modsequence;
         pmap KSequenceSet b_sequence_set;
         pmap KAnd (b_vec1 (delimited (tg "(") (sep_list1 sp (b_search_key n')) (tg ")")))]
  end.
(* search.rs:30-52 *)
Definition b_search_keys : parser (list search_key) := b_vec1 (sep_list1 sp (b_search_key 9)).
Definition b_search : parser command_body :=
  kw "SEARCH" ;;; cs <- opt (sp ;;; kw "CHARSET" ;;; sp ;;; b_charset) ;; sp ;;;
  ks <- b_search_keys ;; ret (CSearch cs ks false).
(* search.rs:231-241 *)
Definition b_search_criteria : parser (charset * list search_key) :=
  cs <- b_charset ;; sp ;;; ks <- b_search_keys ;; ret (cs, ks).
(** ** ParseCmd.v *)

(* extensions/id.rs:31-75 *)
Definition b_id_param : parser (istring * nstring) :=
  k <- b_string ;; sp ;;; v <- b_nstring ;; ret (k, v).
Definition b_id_params_list : parser (option (list (istring * nstring))) :=
  alt [pmap Some
         (delimited (tg "(")
            (if quirk_trailing_space_id
             then terminated (sep_list0 sp b_id_param) (opt sp)
             else sep_list0 sp b_id_param)
            (tg ")"));
       value None p_nil].
Definition b_id : parser (option (list (istring * nstring))) := kw "ID " ;;; b_id_params_list.
(* extensions/enable.rs:37-55 *)
Definition b_capability_enable : parser capability_enable := pmap capability_enable_from b_atom.
Definition b_enable : parser command_body :=
  kw "ENABLE" ;;; pmap CEnable (vec1 (many1 (sp ;;; b_capability_enable))).
(* extensions/quota.rs:32-57, 96-98, 144-165 *)
Definition b_getquota : parser command_body := kw "GETQUOTA " ;;; pmap CGetQuota b_astring.
Definition b_getquotaroot : parser command_body :=
  kw "GETQUOTAROOT " ;;; pmap CGetQuotaRoot b_mailbox.
Definition b_resource_name : parser resource := pmap resource_from b_atom.
Definition b_setquota_resource : parser quota_set :=
  r <- b_resource_name ;; sp ;;; l <- p_number64 ;; ret (mkQuotaSet r l).
Definition b_setquota : parser command_body :=
  kw "SETQUOTA " ;;; r <- b_astring ;;
  qs <- delimited (tg " (") (sep_list0 sp b_setquota_resource) (tg ")") ;;
  ret (CSetQuota r qs).
(* extensions/metadata.rs:37-104; [Entry::try_from] never fails *)
Definition b_entry_value : parser entry_value :=
  e <- b_astring ;; sp ;;; v <- b_nstring8 ;; ret (mkEntryValue e v).
Definition b_entry_values : parser (list entry_value) :=
  b_vec1 (delimited (tg "(") (sep_list1 sp b_entry_value) (tg ")")).
Definition b_setmetadata : parser command_body :=
  kw "SETMETADATA" ;;; sp ;;; m <- b_mailbox ;; sp ;;; es <- b_entry_values ;;
  ret (CSetMetadata m es).
Definition b_getmetadata_options : parser (list get_metadata_option) :=
  b_vec1 (delimited (tg "(") (sep_list1 sp p_getmetadata_option) (tg ")")).
Definition b_entries : parser (list astring) :=
  alt [pmap (fun e => [e]) b_astring;
       b_vec1 (delimited (tg "(") (sep_list1 sp b_astring) (tg ")"))].
Definition b_getmetadata : parser command_body :=
  kw "GETMETADATA" ;;; o <- opt (sp ;;; b_getmetadata_options) ;;
  sp ;;; m <- b_mailbox ;; sp ;;; es <- b_entries ;;
  ret (CGetMetadata (dflt o) m es).
(* extensions/uidplus.rs:28-33 *)
Definition b_uid_expunge : parser command_body :=
  kw "UID EXPUNGE " ;;; pmap CExpungeUid b_sequence_set.
(* extensions/move.rs:12-25 *)
Definition b_move : parser command_body :=
  kw "MOVE" ;;; sp ;;; s <- b_sequence_set ;; sp ;;; m <- b_mailbox ;; ret (CMove s m false).
Definition b_sort_criteria : parser (list sort_criterion) :=
  delimited (tg "(") (b_vec1 (sep_list1 sp p_sort_criterion)) (tg ")").
Definition b_sort : parser command_body :=
  u <- opt (kw "UID ") ;; kw "SORT " ;;; sc <- b_sort_criteria ;; sp ;;;
  ' (cs, ks) <- b_search_criteria ;; ret (CSort sc cs ks (is_some u)).
(* extensions/thread.rs:50-79 *)
Definition b_thread : parser command_body :=
  u <- opt (kw "UID ") ;; kw "THREAD " ;;;
  a <- pmap threading_algorithm_from b_atom ;; sp ;;;
  ' (cs, ks) <- b_search_criteria ;; ret (CThread a cs ks (is_some u)).
(* command.rs:114-125 *)
Definition b_command_any : parser command_body :=
  alt [value CCapability (kw "CAPABILITY"); value CLogout (kw "LOGOUT");
       value CNoop (kw "NOOP"); gate ext_id (pmap CId b_id)].
(* command.rs:379-409 *)
Definition b_select_param : parser select_parameter :=
  alt [value SPCondStore (kw "CONDSTORE");
       (kw "QRESYNC (" ;;;
        v <- p_nz_number ;; sp ;;; m <- p_mod_sequence_value ;;
        k <- opt (sp ;;; b_sequence_set) ;;
        d <- opt (sp ;;; delimited (char "("%byte)
                           (a <- b_sequence_set ;; sp ;;; b <- b_sequence_set ;; ret (a, b))
                           (char ")"%byte)) ;;
        char ")"%byte ;;;
        ret (SPQResync v m k d))].
(* command.rs:330-332 and the [opt] of select and examine; without the feature the field
   does not exist ([[]] in the model) *)
Definition b_select_params : parser (list select_parameter) :=
  if ext_condstore_qresync
  then pmap dflt (opt (delimited (tg " (") (sep_list1 sp b_select_param) (tg ")")))
  else ret [].
(* command.rs:179-206 *)
Definition b_append : parser command_body :=
  kw "APPEND " ;;; m <- b_mailbox ;; fl <- opt (sp ;;; b_flag_list) ;;
  d <- opt (sp ;;; b_date_time) ;; sp ;;;
  msg <- alt [pmap LLiteral p_literal; pmap LLiteral8 p_literal8] ;;
  ret (CAppend m (dflt fl) d msg).
(* command.rs:208-250 *)
Definition b_create : parser command_body := kw "CREATE " ;;; pmap CCreate b_mailbox.
Definition b_delete : parser command_body := kw "DELETE " ;;; pmap CDelete b_mailbox.
Definition b_examine : parser command_body :=
  kw "EXAMINE " ;;; m <- b_mailbox ;; ps <- b_select_params ;; ret (CExamine m ps).
(* command.rs:253-280 *)
Definition b_list : parser command_body :=
  kw "LIST " ;;; m <- b_mailbox ;; sp ;;; l <- b_list_mailbox ;; ret (CList m l).
Definition b_lsub : parser command_body :=
  kw "LSUB " ;;; m <- b_mailbox ;; sp ;;; l <- b_list_mailbox ;; ret (CLsub m l).
(* command.rs:285-327 *)
Definition b_rename : parser command_body :=
  kw "RENAME " ;;; a <- b_mailbox ;; sp ;;; b <- b_mailbox ;; ret (CRename a b).
Definition b_select : parser command_body :=
  kw "SELECT " ;;; m <- b_mailbox ;; ps <- b_select_params ;; ret (CSelect m ps).
(* command.rs:413-448 *)
Definition b_status : parser command_body :=
  kw "STATUS " ;;; m <- b_mailbox ;;
  l <- delimited (tg " (") (sep_list0 sp p_status_att) (tg ")") ;; ret (CStatus m l).
Definition b_subscribe : parser command_body := kw "SUBSCRIBE " ;;; pmap CSubscribe b_mailbox.
Definition b_unsubscribe : parser command_body :=
  kw "UNSUBSCRIBE " ;;; pmap CUnsubscribe b_mailbox.
(* command.rs:150-176 *)
Definition b_command_auth : parser command_body :=
  alt [b_append; b_create; b_delete; b_examine; b_list; b_lsub; b_rename; b_select; b_status;
       b_subscribe; b_unsubscribe; p_idle; b_enable; p_compress; b_getquota; b_getquotaroot;
       b_setquota; gate ext_metadata b_setmetadata; gate ext_metadata b_getmetadata;
       gate ext_namespace p_namespace_command].
(* auth.rs:23-27 *)
Definition b_auth_type : parser auth_mechanism := pmap auth_mechanism_from b_atom.
(* command.rs:473-497 *)
Definition b_login : parser command_body :=
  kw "LOGIN" ;;; sp ;;; u <- b_astring ;; sp ;;; p <- b_astring ;; ret (CLogin u p).
(* command.rs:512-533 *)
Definition b_authenticate : parser command_body :=
  kw "AUTHENTICATE " ;;; a <- b_auth_type ;;
  r <- opt (sp ;;; alt [p_base64; value [] (tg "=")]) ;; ret (CAuthenticate a r).
(* command.rs:454-470 *)
Definition b_command_nonauth : parser command_body :=
  alt [b_login; b_authenticate; gate starttls (value CStartTls (kw "STARTTLS"))].
(* command.rs:565-578 *)
Definition b_copy : parser command_body :=
  kw "COPY" ;;; sp ;;; s <- b_sequence_set ;; sp ;;; m <- b_mailbox ;; ret (CCopy s m false).
(* command.rs:587-637 *)
Definition b_macro_or_items : parser macro_or_items :=
  alt [value (MIMacro MacroAll) (kw "ALL"); value (MIMacro MacroFast) (kw "FAST");
       value (MIMacro MacroFull) (kw "FULL"); pmap (fun a => MIItems [a]) b_fetch_att;
       pmap MIItems (delimited (tg "(") (sep_list0 sp b_fetch_att) (tg ")"))].
Definition b_fetch : parser command_body :=
  kw "FETCH" ;;; sp ;;; s <- b_sequence_set ;; sp ;;; it <- b_macro_or_items ;;
  ms <- p_fetch_modifiers ;; ret (CFetch s it false ms).
(* command.rs:753-783 *)
Definition b_store_att_flags : parser (store_type * store_response * list flag) :=
  t <- opt (alt [value STAdd (tg "+"); value STRemove (tg "-")]) ;;
  kw "FLAGS" ;;; r <- opt (kw ".SILENT") ;; sp ;;;
  fl <- alt [b_flag_list; sep_list1 sp b_flag] ;;
  ret (match t with Some t => t | None => STReplace end,
       match r with Some _ => SRSilent | None => SRAnswer end, fl).
(* command.rs:689-717 *)
Definition b_store : parser command_body :=
  kw "STORE" ;;; sp ;;; s <- b_sequence_set ;; ms <- p_store_modifiers ;; sp ;;;
  ' (t, r, fl) <- b_store_att_flags ;; ret (CStore s t r fl false ms).
Definition b_uid : parser command_body :=
  kw "UID" ;;; sp ;;; expect (alt [b_copy; b_fetch; b_search; b_store; b_move]) set_uid.
(* command.rs:546-562 *)
Definition b_command_select : parser command_body :=
  alt [value CCheck (kw "CHECK"); value CClose (kw "CLOSE"); value CExpunge (kw "EXPUNGE");
       b_uid_expunge; b_copy; b_fetch; b_store; b_uid; b_search; b_sort; b_thread;
       value CUnselect (kw "UNSELECT"); b_move].
(* command.rs:73-104 *)
Definition b_command_body : parser command_body :=
  terminated (alt [b_command_any; b_command_auth; b_command_nonauth; b_command_select]) crlf.
Definition b_command : parser command :=
  t <- terminated b_tag_imap sp ;;
  (fun i => fill_tag t (pmap (mkCommand t) b_command_body i)).
(** ** ParseResp.v *)

(* extensions/metadata.rs:195-218 *)
Definition b_metadata_resp : parser data :=
  kw "METADATA" ;;; sp ;;; m <- b_mailbox ;; sp ;;;
  it <- alt [pmap MRWithValues b_entry_values;
             pmap MRWithoutValues (b_vec1 (sep_list1 sp b_astring))] ;;
  ret (DMetadata m it).
(* extensions/namespace.rs:40-119; mailbox.rs:194-197 *)
Definition b_delimiter : parser (option byte) :=
  alt [pmap Some (delimited dquote b_quoted_char dquote); value None p_nil].
Definition b_namespace_ext : parser namespace_ext :=
  sp ;;; k <- b_string ;; sp ;;;
  vs <- b_vec1 (delimited (char "("%byte) (sep_list1 sp b_string) (char ")"%byte)) ;;
  ret (mkNsExt k vs).
Definition b_namespace_descr : parser namespace :=
  char "("%byte ;;; p <- b_string ;; sp ;;; d <- b_delimiter ;;
  es <- many0 b_namespace_ext ;; char ")"%byte ;;;
  ret (mkNamespace p d es).
Definition b_namespace : parser (list namespace) :=
  alt [value [] p_nil; delimited (char "("%byte) (many1 b_namespace_descr) (char ")"%byte)].
Definition b_namespace_response : parser data :=
  kw "NAMESPACE " ;;; a <- b_namespace ;; sp ;;; b <- b_namespace ;; sp ;;;
  c <- b_namespace ;; ret (DNamespace a b c).
Definition b_quota_resource : parser quota_get :=
  r <- b_resource_name ;; p_quota_sp ;;; u <- p_number64 ;; p_quota_sp ;;;
  l <- p_number64 ;; ret (mkQuotaGet r u l).
Definition b_quota_response : parser data :=
  kw "QUOTA " ;;; r <- b_astring ;;
  qs <- vec1 (delimited (tg " (") (sep_list1 sp b_quota_resource) (tg ")")) ;;
  ret (DQuota r qs).
Definition b_quotaroot_response : parser data :=
  kw "QUOTAROOT " ;;; m <- b_mailbox ;; rs <- many0 (sp ;;; b_astring) ;;
  ret (DQuotaRoot m rs).
(* extensions/thread.rs:118-155; [n] is the remaining recursion *)
Fixpoint b_thread_list (n : nat) : parser thread :=
  match n with
  | O => pfail
  | S n' =>
    delimited (tg "(")
      (alt [(p <- b_vec1 (sep_list1 sp p_nz_number) ;;
             a <- opt (b_vec2 (sp ;;; many_m 2 (b_thread_list n'))) ;;
             ret (TMembers p a));
            pmap TNested (b_vec2 (many_m 2 (b_thread_list n')))])
      (tg ")")
  end.
(* extensions/thread.rs:84-93 *)
Definition b_thread_data : parser data :=
  kw "THREAD" ;;; o <- opt (sp ;;; many1 (b_thread_list 8)) ;; ret (DThread (dflt o)).
Definition b_uid_set : parser uid_set :=
  b_vec1 (sep_list1 (tg ",") (alt [p_uid_range; pmap UESingle p_nz_number])).
Definition b_resp_code_copy : parser code :=
  kw "COPYUID " ;;; v <- p_nz_number ;; sp ;;; s <- b_uid_set ;; sp ;;; d <- b_uid_set ;;
  ret (CdCopyUid v s d).
(* extensions/enable.rs:58-67 *)
Definition b_enable_data : parser data :=
  kw "ENABLED" ;;; pmap DEnabled (many0 (sp ;;; b_capability_enable)).
(* mailbox.rs:186-205 *)
Definition b_mailbox_list
  : parser (list flag_name_attribute * option byte * mailbox) :=
  fl <- delimited (tg "(") (opt b_mbx_list_flags) (tg ")") ;; sp ;;;
  d <- b_delimiter ;; sp ;;; m <- b_mailbox ;; ret (dflt fl, d, m).
(* mailbox.rs:87-180 *)
Definition b_mailbox_data : parser data :=
  alt [pmap DFlags (kw "FLAGS " ;;; b_flag_list);
       (kw "LIST " ;;; ' (fl, d, m) <- b_mailbox_list ;; ret (DList fl d m));
       (kw "LSUB " ;;; ' (fl, d, m) <- b_mailbox_list ;; ret (DLsub fl d m));
       (kw "SEARCH" ;;; l <- p_nums ;; m <- p_opt_modseq ;;
          p_opt_sp quirk_trailing_space_search ;;; ret (DSearch l m));
       (kw "SORT" ;;; l <- p_nums ;; m <- p_opt_modseq ;; ret (DSort l m));
       b_thread_data;
       (kw "STATUS " ;;; m <- b_mailbox ;;
          o <- delimited (tg " (") (opt p_status_att_list) (tg ")") ;;
          p_opt_sp quirk_trailing_space_status ;;; ret (DStatus m (dflt o)));
       gate ext_metadata b_metadata_resp;
       gate ext_namespace b_namespace_response;
       pmap DExists (terminated p_number (kw " EXISTS"));
       pmap DRecent (terminated p_number (kw " RECENT"));
       b_quotaroot_response; b_quota_response].
(* response.rs:240-242, 224-236 *)
Definition b_capability : parser capability := pmap capability_from b_atom.
Definition b_capability_data : parser (list capability) :=
  b_vec1 (kw "CAPABILITY " ;;;
        terminated (sep_list1 sp b_capability) (p_opt_sp quirk_trailing_space_capability)).
(* response.rs:152-220 *)
Definition b_resp_text_code : parser code :=
  alt [value CdAlert (kw "ALERT");
       (kw "BADCHARSET" ;;; o <- opt (delimited (tg " (") (sep_list1 sp b_charset) (tg ")")) ;;
          ret (CdBadCharset (dflt o)));
       pmap CdCapability b_capability_data;
       value CdParse (kw "PARSE");
       (kw "PERMANENTFLAGS " ;;;
          o <- delimited (tg "(") (opt (sep_list1 sp b_flag_perm)) (tg ")") ;;
          ret (CdPermanentFlags (dflt o)));
       value CdReadOnly (kw "READ-ONLY"); value CdReadWrite (kw "READ-WRITE");
       value CdTryCreate (kw "TRYCREATE");
       pmap CdUidNext (kw "UIDNEXT " ;;; p_nz_number);
       pmap CdUidValidity (kw "UIDVALIDITY " ;;; p_nz_number);
       pmap CdUnseen (kw "UNSEEN " ;;; p_nz_number);
       value CdCompressionActive (kw "COMPRESSIONACTIVE");
       value CdOverQuota (kw "OVERQUOTA"); value CdTooBig (kw "TOOBIG");
       gate ext_metadata (pmap CdMetadata (kw "METADATA " ;;; p_metadata_code));
       value CdUnknownCte (kw "UNKNOWN-CTE");
       p_resp_code_apnd; b_resp_code_copy;
       value CdUidNotSticky (kw "UIDNOTSTICKY");
       gate ext_condstore_qresync
         (alt [pmap CdHighestModSeq (kw "HIGHESTMODSEQ " ;;; p_mod_sequence_value);
               value CdNoModSeq (kw "NOMODSEQ");
               pmap CdModified (kw "MODIFIED " ;;; b_sequence_set);
               value CdClosed (kw "CLOSED")])].
(* response.rs:102-116 *)
Definition b_text_after_code : parser bytes :=
  if quirk_missing_text
  then alt [sp ;;; b_text; expect (value (bs "...") (peek crlf)) (unvalidated text_ok)]
  else sp ;;; b_text.
(* response.rs:82-122 *)
Definition b_resp_text : parser (option code * bytes) := fun i =>
  match opt (tg "[") i with
  | ROk _ (Some _) =>
    (tg "[" ;;; c <- alt [terminated b_resp_text_code (tg "]"); p_code_other] ;;
     t <- b_text_after_code ;; ret (Some c, t)) i
  | ROk _ None => pmap (fun t => (None, t)) b_text i
  | RInc => RInc
  | RErr => RErr
  | RFail e => RFail e
  | RPanic => RPanic
  end.
(* response.rs:65-79, 245-247 *)
Definition b_resp_cond_auth : parser (greeting_kind * (option code * bytes)) :=
  k <- alt [value GKOk (kw "OK "); value GKPreAuth (kw "PREAUTH ")] ;;
  t <- b_resp_text ;; ret (k, t).
Definition b_resp_cond_bye : parser (option code * bytes) := kw "BYE " ;;; b_resp_text.
(* response.rs:46-60 *)
Definition b_greeting : parser greeting :=
  ' (k, (c, t)) <- delimited (tg "* ")
      (alt [b_resp_cond_auth; pmap (fun ct => (GKBye, ct)) b_resp_cond_bye]) crlf ;;
  ret (mkGreeting k c t).
Definition b_continue_req : parser continuation :=
  expect
    (tg "+ " ;;;
     e <- alt [pmap inl (map_res p_until_crlf b64_decode); pmap inr b_resp_text] ;;
     crlf ;;; ret e)
    (fun e => match e with inl d => Some (CRBase64 d) | inr ct => basic_of ct end).
(* response.rs:362-375 *)
Definition b_resp_cond_state : parser status_body :=
  k <- alt [value SKOk (kw "OK "); value SKNo (kw "NO "); value SKBad (kw "BAD ")] ;;
  ' (c, t) <- b_resp_text ;; ret (mkStatusBody k c t).
(* response.rs:419-452 *)
Definition b_message_data : parser data :=
  alt [(s <- terminated p_nz_number sp ;;
        alt [value (DExpunge s) (kw "EXPUNGE"); pmap (DFetch s) (kw "FETCH " ;;; b_msg_att)]);
       gate ext_condstore_qresync
         (kw "VANISHED" ;;; e <- opt (kw " (EARLIER)") ;; sp ;;; s <- b_sequence_set ;;
          ret (DVanished (is_some e) s))].
(* response.rs:334-357 *)
Definition b_response_data : parser response :=
  delimited (tg "* ")
    (alt [pmap (fun b => RStatus (StUntagged b)) b_resp_cond_state;
          pmap (fun ct => RStatus (StBye (fst ct) (snd ct))) b_resp_cond_bye;
          pmap RData b_mailbox_data;
          pmap RData b_message_data;
          pmap (fun l => RData (DCapability l)) b_capability_data;
          pmap RData b_enable_data;
          gate ext_id (pmap (fun p => RData (DId p)) b_id)])
    crlf.
(* response.rs:378-407 *)
Definition b_response_tagged : parser status :=
  t <- b_tag_imap ;; sp ;;; b <- b_resp_cond_state ;; crlf ;;; ret (StTagged t b).
Definition b_response_fatal : parser status :=
  ' (c, t) <- delimited (tg "* ") b_resp_cond_bye crlf ;; ret (StBye c t).
Definition b_response_done : parser status := alt [b_response_tagged; b_response_fatal].
(* response.rs:252-265 *)
Definition b_response : parser response :=
  alt [gate quirk_empty_continue_req (pmap RContinue p_empty_continue_req);
       pmap RContinue b_continue_req; b_response_data; pmap RStatus b_response_done].

(** ** Decode.v *)

(* codec/decode.rs:302-316 *)
Definition b_decode_greeting : bytes -> outcome simple_error greeting := simple_decode b_greeting.
(* codec/decode.rs:368-384, 386-400: p_authenticate_data and p_idle_done do not depend on the build *)
Definition b_decode_authenticate_data : bytes -> outcome simple_error authenticate_data :=
  simple_decode p_authenticate_data.
Definition b_decode_idle_done : bytes -> outcome simple_error unit := simple_decode p_idle_done.
(* codec/decode.rs:318-344 *)
Definition b_decode_command (i : bytes) : outcome command_error command :=
  match b_command i with
  | ROk r a => Decoded r a
  | RInc => Error CmdIncomplete
  | RFail (FLit (Some t) n m) => Error (CmdLiteralFound t n m)
  | RFail (FLit None _ _) => Panic
  | RFail FOther | RErr => Error CmdFailed
  | RPanic => Panic
  end.
(* codec/decode.rs:346-366 *)
Definition b_decode_response (i : bytes) : outcome response_error response :=
  match b_response i with
  | ROk r a => Decoded r a
  | RInc => Error RspIncomplete
  | RFail (FLit _ n _) => Error (RspLiteralFound n)
  | RFail FOther | RErr => Error RspFailed
  | RPanic => Panic
  end.

End Build.
