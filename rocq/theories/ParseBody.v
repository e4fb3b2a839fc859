(** Envelopes, body structures, fetch items and search keys:
    imap-codec/src/{envelope,body,fetch,search}.rs, extensions/binary.rs (section, partial). *)

From Verif Require Import Bytes Dec Features Nom Types Conv ParseCore.

Section ParseBody.
Context {F : features}.

(** ** envelope.rs *)

(* envelope.rs:180-205 *)
Definition p_address : parser address :=
  (if quirk_spaces_between_addresses then many0 sp ;;; ret tt else ret tt) ;;;
  tg "(" ;;;
  name <- p_nstring ;; sp ;;; adl <- p_nstring ;; sp ;;; mb <- p_nstring ;; sp ;;;
  host <- p_nstring ;;
  tg ")" ;;;
  ret (mkAddress name adl mb host).
(* envelope.rs:115-160: env_from, env_sender, env_reply_to, env_to, env_cc, env_bcc *)
Definition p_addresses : parser (list address) :=
  alt [delimited (tg "(") (many1 p_address) (tg ")"); value [] p_nil].
(* envelope.rs:33-99 *)
Definition p_envelope : parser envelope :=
  tg "(" ;;;
  date <- p_nstring ;; sp ;;; subject <- p_nstring ;; sp ;;;
  from <- p_addresses ;; sp ;;; sender <- p_addresses ;; sp ;;;
  reply_to <- p_addresses ;; sp ;;; to <- p_addresses ;; sp ;;;
  cc <- p_addresses ;; sp ;;; bcc <- p_addresses ;; sp ;;;
  in_reply_to <- p_nstring ;; sp ;;; message_id <- p_nstring ;;
  tg ")" ;;;
  ret (mkEnvelope date subject from sender reply_to to cc bcc in_reply_to message_id).

(** ** body.rs *)

(* body.rs:219-236 *)
Definition p_pair : parser (istring * istring) :=
  k <- p_string ;; sp ;;; v <- p_string ;; ret (k, v).
Definition p_body_fld_param : parser (list (istring * istring)) :=
  alt [delimited (tg "(") (sep_list0 sp p_pair) (tg ")"); value [] p_nil].
(* body.rs:272-281 *)
Definition p_body_fld_enc : parser istring :=
  if quirk_body_fld_enc_nil_to_empty
  then pmap (fun o => match o with Some s => s | None => IQuoted [] end) p_nstring
  else p_string.
(* body.rs:292-307 *)
Definition p_body_fld_octets : parser N :=
  if quirk_rectify_numbers
  then alt [p_number; value 0%N (tg "-" ;;; p_number)]
  else p_number.
(* body.rs:185-216 *)
Definition p_body_fields : parser basic_fields :=
  params <- p_body_fld_param ;; sp ;;; id <- p_nstring ;; sp ;;; desc <- p_nstring ;; sp ;;;
  enc <- p_body_fld_enc ;; sp ;;; size <- p_body_fld_octets ;;
  ret (mkBasic params id desc enc size).

(* body.rs:416-438; [n] is the remaining recursion *)
Fixpoint p_body_extension (n : nat) : parser body_extension :=
  match n with
  | O => pfail
  | S n' =>
    alt [pmap BENString p_nstring; pmap BENumber p_number;
         pmap BEList (vec1 (delimited (tg "(") (sep_list1 sp (p_body_extension n')) (tg ")")))]
  end.
(* body.rs:363-375 *)
Definition p_body_fld_dsp : parser (option (istring * list (istring * istring))) :=
  alt [delimited (tg "(")
         (s <- p_string ;; sp ;;; ps <- p_body_fld_param ;; ret (Some (s, ps))) (tg ")");
       value None p_nil].
(* body.rs:380-388 *)
Definition p_body_fld_lang : parser (list istring) :=
  alt [pmap (fun o => match o with Some s => [s] | None => [] end) p_nstring;
       delimited (tg "(") (sep_list1 sp p_string) (tg ")")].
(* body.rs:334-350, 497-513: the part shared by body_ext_1part and body_ext_mpart *)
Definition p_location : parser location :=
  sp ;;; l <- p_nstring ;; es <- many0 (sp ;;; p_body_extension 8) ;; ret (mkLocation l es).
Definition p_language : parser language :=
  sp ;;; l <- p_body_fld_lang ;; t <- opt p_location ;; ret (mkLanguage l t).
Definition p_disposition : parser disposition :=
  sp ;;; d <- p_body_fld_dsp ;; t <- opt p_language ;; ret (mkDisposition d t).
(* body.rs:324-354 *)
Definition p_body_ext_1part : parser single_ext :=
  m <- p_nstring ;; t <- opt p_disposition ;; ret (mkSingleExt m t).
(* body.rs:487-520 *)
Definition p_body_ext_mpart : parser multi_ext :=
  ps <- p_body_fld_param ;; t <- opt p_disposition ;; ret (mkMultiExt ps t).

(* body.rs:94-110, 542-556 *)
Definition p_body_type_basic : parser (basic_fields * specific_fields) :=
  ty <- p_string ;; sp ;;; sub <- p_string ;; sp ;;; b <- p_body_fields ;;
  ret (b, SFBasic ty sub).
(* body.rs:569-585, 163-182 *)
Definition p_media_message : parser unit := kw """MESSAGE"" ""RFC822""".
Definition p_media_text : parser istring := kw """TEXT"" " ;;; p_string.
Definition p_body_type_text : parser (basic_fields * specific_fields) :=
  sub <- p_media_text ;; sp ;;; b <- p_body_fields ;; sp ;;; n <- p_number ;;
  ret (b, SFText sub n).

(** The parsers of body.rs:33-160 and 446-482 are mutually recursive. The multipart
    parser decrements the recursion limit; the message/rfc822 parser resets it to 8
    (body.rs:73), so nesting is only bounded by the input. [pb] stands for the parser
    of nested bodies, by remaining recursion. *)
(* body.rs:119-160, called with the literal limit 8 (hence not 0) *)
Definition p_body_type_msg (pb : nat -> parser body_structure)
  : parser (basic_fields * specific_fields) :=
  p_media_message ;;; sp ;;; b <- p_body_fields ;; sp ;;; e <- p_envelope ;; sp ;;;
  s <- pb 7 ;; sp ;;; n <- p_number ;;
  ret (b, SFMessage e s n).
(* body.rs:62-90 *)
Definition p_body_type_1part (pb : nat -> parser body_structure) (n : nat)
  : parser body_structure :=
  match n with
  | O => pfail
  | S _ =>
    ' (b, s) <- alt [p_body_type_msg pb; p_body_type_text; p_body_type_basic] ;;
    x <- opt (sp ;;; p_body_ext_1part) ;;
    ret (BSSingle b s x)
  end.
(* body.rs:446-482 *)
Definition p_body_type_mpart (pb : nat -> parser body_structure) (n : nat)
  : parser body_structure :=
  match n with
  | O => pfail
  | S _ =>
    bodies <- vec1 (many1 (pb n)) ;; sp ;;; sub <- p_string ;;
    x <- opt (sp ;;; p_body_ext_mpart) ;;
    ret (BSMulti bodies sub x)
  end.
(* body.rs:33-55; [fuel] bounds the nesting depth of the call stack and is never
   exhausted when it exceeds the input length (ParseFacts) *)
Fixpoint p_body_f (fuel n : nat) : parser body_structure :=
  match fuel with
  | O => fun _ => RPanic
  | S fuel' =>
    match n with
    | O => pfail
    | S n' =>
      delimited (tg "(")
        (alt [p_body_type_1part (p_body_f fuel') n'; p_body_type_mpart (p_body_f fuel') n'])
        (tg ")")
    end
  end.
(* body.rs:27-31 *)
Definition p_body (n : nat) : parser body_structure := fun i => p_body_f (S (length i)) n i.

(** ** fetch.rs *)

(* fetch.rs:348-350, 339-344 *)
Definition p_header_list : parser (list astring) :=
  vec1 (delimited (tg "(") (sep_list1 sp p_astring) (tg ")")).
(* fetch.rs:324-326 *)
Definition p_section_part : parser (list N) := vec1 (sep_list1 (tg ".") p_nz_number).
(** [PartSpecifier] (imap-types/src/fetch.rs); [PartNumber] is never constructed. *)
Inductive part_specifier :=
| PSHeader | PSHeaderFields (l : list astring) | PSHeaderFieldsNot (l : list astring)
| PSText | PSMime.
(* fetch.rs:305-318 *)
Definition p_section_msgtext : parser part_specifier :=
  alt [kw "HEADER.FIELDS.NOT" ;;; sp ;;; pmap PSHeaderFieldsNot p_header_list;
       kw "HEADER.FIELDS" ;;; sp ;;; pmap PSHeaderFields p_header_list;
       value PSHeader (kw "HEADER"); value PSText (kw "TEXT")].
(* fetch.rs:331-336 *)
Definition p_section_text : parser part_specifier :=
  alt [p_section_msgtext; value PSMime (kw "MIME")].
(* fetch.rs:268-300; [unreachable!()] for MIME without a part *)
Definition section_top (p : part_specifier) : option section :=
  match p with
  | PSHeader => Some (SecHeader None)
  | PSHeaderFields l => Some (SecHeaderFields None l)
  | PSHeaderFieldsNot l => Some (SecHeaderFieldsNot None l)
  | PSText => Some (SecText None)
  | PSMime => None
  end.
Definition section_sub (n : list N) (o : option part_specifier) : section :=
  match o with
  | None => SecPart n
  | Some PSHeader => SecHeader (Some n)
  | Some (PSHeaderFields l) => SecHeaderFields (Some n) l
  | Some (PSHeaderFieldsNot l) => SecHeaderFieldsNot (Some n) l
  | Some PSText => SecText (Some n)
  | Some PSMime => SecMime n
  end.
Definition p_section_spec : parser section :=
  alt [expect p_section_msgtext section_top;
       n <- p_section_part ;; o <- opt (tg "." ;;; p_section_text) ;; ret (section_sub n o)].
(* fetch.rs:263-265 *)
Definition p_section : parser (option section) := delimited (tg "[") (opt p_section_spec) (tg "]").

(* extensions/binary.rs:99-108 *)
Definition p_section_binary : parser (list N) :=
  delimited (tg "[") (pmap dflt (opt p_section_part)) (tg "]").
(* extensions/binary.rs:113-119 and the same code inlined in fetch.rs:57-61, 73-77 *)
Definition p_partial : parser (N * N) :=
  delimited (tg "<") (a <- p_number ;; tg "." ;;; b <- p_nz_number ;; ret (a, b)) (tg ">").

(* fetch.rs:43-119 *)
Definition p_fetch_att : parser item_name :=
  alt [value INEnvelope (kw "ENVELOPE"); value INFlags (kw "FLAGS");
       value INInternalDate (kw "INTERNALDATE"); value INBodyStructure (kw "BODYSTRUCTURE");
       (kw "BODY.PEEK" ;;; s <- p_section ;; p <- opt p_partial ;; ret (INBodyExt s p true));
       (kw "BODY" ;;; s <- p_section ;; p <- opt p_partial ;; ret (INBodyExt s p false));
       (kw "BINARY.PEEK" ;;; s <- p_section_binary ;; p <- opt p_partial ;;
          ret (INBinary s p true));
       (kw "BINARY" ;;; s <- p_section_binary ;; p <- opt p_partial ;;
          ret (INBinary s p false));
       (kw "BINARY.SIZE" ;;; s <- p_section_binary ;; ret (INBinarySize s));
       value INBody (kw "BODY"); value INUid (kw "UID");
       value INRfc822Header (kw "RFC822.HEADER"); value INRfc822Size (kw "RFC822.SIZE");
       value INRfc822Text (kw "RFC822.TEXT"); value INRfc822 (kw "RFC822");
       gate ext_condstore_qresync (value INModSeq (kw "MODSEQ"))].

(* fetch.rs:142-172 *)
Definition p_msg_att_dynamic : parser message_data_item :=
  alt [pmap (fun o => MDFlags (dflt o))
         (kw "FLAGS " ;;;
          delimited (char "("%byte) (opt (sep_list1 sp p_flag_fetch)) (char ")"%byte));
       gate ext_condstore_qresync
         (pmap MDModSeq
            (kw "MODSEQ " ;;;
             delimited (char "("%byte) p_mod_sequence_value (char ")"%byte)))].
(* fetch.rs:183-253 and extensions/metadata.rs:99-104 *)
Definition p_nstring8 : parser nstring8 :=
  alt [pmap N8NString p_nstring; pmap N8Literal8 p_literal8].
Definition p_msg_att_static : parser message_data_item :=
  alt [pmap MDEnvelope (kw "ENVELOPE " ;;; p_envelope);
       pmap MDInternalDate (kw "INTERNALDATE " ;;; p_date_time);
       pmap MDRfc822Header (kw "RFC822.HEADER " ;;; p_nstring);
       pmap MDRfc822Text (kw "RFC822.TEXT " ;;; p_nstring);
       pmap MDRfc822Size (kw "RFC822.SIZE " ;;; p_number);
       pmap MDRfc822 (kw "RFC822 " ;;; p_nstring);
       pmap MDBodyStructure (kw "BODYSTRUCTURE " ;;; p_body 8);
       pmap MDBody (kw "BODY " ;;; p_body 8);
       (kw "BODY" ;;; s <- p_section ;; o <- opt (delimited (tg "<") p_number (tg ">")) ;;
          sp ;;; d <- p_nstring ;; ret (MDBodyExt s o d));
       pmap MDUid (kw "UID " ;;; p_nz_number);
       (kw "BINARY" ;;; s <- p_section_binary ;; sp ;;; v <- p_nstring8 ;; ret (MDBinary s v));
       (kw "BINARY.SIZE" ;;; s <- p_section_binary ;; sp ;;; n <- p_number ;;
          ret (MDBinarySize s n))].
(* fetch.rs:126-135 *)
Definition p_msg_att : parser (list message_data_item) :=
  delimited (tg "(") (vec1 (sep_list1 sp (alt [p_msg_att_dynamic; p_msg_att_static]))) (tg ")").

(** ** search.rs *)

(* search.rs:103-228; the two nested [alt]s are one list *)
Fixpoint p_search_key (n : nat) : parser search_key :=
  match n with
  | O => pfail
  | S n' =>
    alt [value KAll (kw "ALL"); value KAnswered (kw "ANSWERED");
         pmap KBcc (kw "BCC" ;;; sp ;;; p_astring);
         pmap KBefore (kw "BEFORE" ;;; sp ;;; p_date);
         pmap KBody (kw "BODY" ;;; sp ;;; p_astring);
         pmap KCc (kw "CC" ;;; sp ;;; p_astring);
         value KDeleted (kw "DELETED"); value KFlagged (kw "FLAGGED");
         pmap KFrom (kw "FROM" ;;; sp ;;; p_astring);
         pmap KKeyword (kw "KEYWORD" ;;; sp ;;; p_atom);
         value KNew (kw "NEW"); value KOld (kw "OLD");
         pmap KOn (kw "ON" ;;; sp ;;; p_date);
         value KRecent (kw "RECENT"); value KSeen (kw "SEEN");
         pmap KSince (kw "SINCE" ;;; sp ;;; p_date);
         pmap KSubject (kw "SUBJECT" ;;; sp ;;; p_astring);
         pmap KText (kw "TEXT" ;;; sp ;;; p_astring);
         pmap KTo (kw "TO" ;;; sp ;;; p_astring);
         value KUnanswered (kw "UNANSWERED"); value KUndeleted (kw "UNDELETED");
         value KUnflagged (kw "UNFLAGGED");
         pmap KUnkeyword (kw "UNKEYWORD" ;;; sp ;;; p_atom);
         value KUnseen (kw "UNSEEN"); value KDraft (kw "DRAFT");
         (kw "HEADER" ;;; sp ;;; k <- p_astring ;; sp ;;; v <- p_astring ;; ret (KHeader k v));
         pmap KLarger (kw "LARGER" ;;; sp ;;; p_number);
         pmap KNot (kw "NOT" ;;; sp ;;; p_search_key n');
         (kw "OR" ;;; sp ;;; a <- p_search_key n' ;; sp ;;; b <- p_search_key n' ;;
            ret (KOr a b));
         pmap KSentBefore (kw "SENTBEFORE" ;;; sp ;;; p_date);
         pmap KSentOn (kw "SENTON" ;;; sp ;;; p_date);
         pmap KSentSince (kw "SENTSINCE" ;;; sp ;;; p_date);
         pmap KSmaller (kw "SMALLER" ;;; sp ;;; p_number);
         pmap KUid (kw "UID" ;;; sp ;;; p_sequence_set);
         value KUndraft (kw "UNDRAFT");
         gate ext_condstore_qresync p_search_modsequence;
         pmap KSequenceSet p_sequence_set;
         pmap KAnd (vec1 (delimited (tg "(") (sep_list1 sp (p_search_key n')) (tg ")")))]
  end.
(* search.rs:30-52 *)
Definition p_search_keys : parser (list search_key) := vec1 (sep_list1 sp (p_search_key 9)).
Definition p_search : parser command_body :=
  kw "SEARCH" ;;; cs <- opt (sp ;;; kw "CHARSET" ;;; sp ;;; p_charset) ;; sp ;;;
  ks <- p_search_keys ;; ret (CSearch cs ks false).
(* search.rs:231-241 *)
Definition p_search_criteria : parser (charset * list search_key) :=
  cs <- p_charset ;; sp ;;; ks <- p_search_keys ;; ret (cs, ks).

End ParseBody.
