(** The parsers of ParseBody.v with their steps counted. *)

From Verif Require Import Bytes Dec Features Nom Types Conv ParseCore ParseBody CostNom CostCore.

Section CostBody.
Context {F : features}.

(** ** envelope.rs *)

(* envelope.rs:180-205 *)
Definition q_address : parser address :=
  (if quirk_spaces_between_addresses then many0 sp ;;; ret tt else ret tt) ;;;
  tg "(" ;;;
  name <- q_nstring ;; sp ;;; adl <- q_nstring ;; sp ;;; mb <- q_nstring ;; sp ;;;
  host <- q_nstring ;;
  tg ")" ;;;
  ret (mkAddress name adl mb host).
(* envelope.rs:115-160: env_from, env_sender, env_reply_to, env_to, env_cc, env_bcc *)
Definition q_addresses : parser (list address) :=
  alt [delimited (tg "(") (many1 q_address) (tg ")"); value [] q_nil].
(* envelope.rs:33-99 *)
Definition q_envelope : parser envelope :=
  tg "(" ;;;
  date <- q_nstring ;; sp ;;; subject <- q_nstring ;; sp ;;;
  from <- q_addresses ;; sp ;;; sender <- q_addresses ;; sp ;;;
  reply_to <- q_addresses ;; sp ;;; to <- q_addresses ;; sp ;;;
  cc <- q_addresses ;; sp ;;; bcc <- q_addresses ;; sp ;;;
  in_reply_to <- q_nstring ;; sp ;;; message_id <- q_nstring ;;
  tg ")" ;;;
  ret (mkEnvelope date subject from sender reply_to to cc bcc in_reply_to message_id).

(** ** body.rs *)

(* body.rs:219-236 *)
Definition q_pair : parser (istring * istring) :=
  k <- q_string ;; sp ;;; v <- q_string ;; ret (k, v).
Definition q_body_fld_param : parser (list (istring * istring)) :=
  alt [delimited (tg "(") (sep_list0 sp q_pair) (tg ")"); value [] q_nil].
(* body.rs:272-281 *)
Definition q_body_fld_enc : parser istring :=
  if quirk_body_fld_enc_nil_to_empty
  then pmap (fun o => match o with Some s => s | None => IQuoted [] end) q_nstring
  else q_string.
(* body.rs:292-307 *)
Definition q_body_fld_octets : parser N :=
  if quirk_rectify_numbers
  then alt [q_number; value 0%N (tg "-" ;;; q_number)]
  else q_number.
(* body.rs:185-216 *)
Definition q_body_fields : parser basic_fields :=
  params <- q_body_fld_param ;; sp ;;; id <- q_nstring ;; sp ;;; desc <- q_nstring ;; sp ;;;
  enc <- q_body_fld_enc ;; sp ;;; size <- q_body_fld_octets ;;
  ret (mkBasic params id desc enc size).

(* body.rs:416-438; [n] is the remaining recursion *)
Fixpoint q_body_extension (n : nat) : parser body_extension :=
  match n with
  | O => pfail
  | S n' =>
    alt [pmap BENString q_nstring; pmap BENumber q_number;
         pmap BEList (vec1 (delimited (tg "(") (sep_list1 sp (q_body_extension n')) (tg ")")))]
  end.
(* body.rs:363-375 *)
Definition q_body_fld_dsp : parser (option (istring * list (istring * istring))) :=
  alt [delimited (tg "(")
         (s <- q_string ;; sp ;;; ps <- q_body_fld_param ;; ret (Some (s, ps))) (tg ")");
       value None q_nil].
(* body.rs:380-388 *)
Definition q_body_fld_lang : parser (list istring) :=
  alt [pmap (fun o => match o with Some s => [s] | None => [] end) q_nstring;
       delimited (tg "(") (sep_list1 sp q_string) (tg ")")].
(* body.rs:334-350, 497-513: the part shared by body_ext_1part and body_ext_mpart *)
Definition q_location : parser location :=
  sp ;;; l <- q_nstring ;; es <- many0 (sp ;;; q_body_extension 8) ;; ret (mkLocation l es).
Definition q_language : parser language :=
  sp ;;; l <- q_body_fld_lang ;; t <- opt q_location ;; ret (mkLanguage l t).
Definition q_disposition : parser disposition :=
  sp ;;; d <- q_body_fld_dsp ;; t <- opt q_language ;; ret (mkDisposition d t).
(* body.rs:324-354 *)
Definition q_body_ext_1part : parser single_ext :=
  m <- q_nstring ;; t <- opt q_disposition ;; ret (mkSingleExt m t).
(* body.rs:487-520 *)
Definition q_body_ext_mpart : parser multi_ext :=
  ps <- q_body_fld_param ;; t <- opt q_disposition ;; ret (mkMultiExt ps t).

(* body.rs:94-110, 542-556 *)
Definition q_body_type_basic : parser (basic_fields * specific_fields) :=
  ty <- q_string ;; sp ;;; sub <- q_string ;; sp ;;; b <- q_body_fields ;;
  ret (b, SFBasic ty sub).
(* body.rs:569-585, 163-182 *)
Definition q_media_message : parser unit := kw """MESSAGE"" ""RFC822""".
Definition q_media_text : parser istring := kw """TEXT"" " ;;; q_string.
Definition q_body_type_text : parser (basic_fields * specific_fields) :=
  sub <- q_media_text ;; sp ;;; b <- q_body_fields ;; sp ;;; n <- q_number ;;
  ret (b, SFText sub n).

(** The parsers of body.rs:33-160 and 446-482 are mutually recursive. The multipart
    parser decrements the recursion limit; the message/rfc822 parser resets it to 8
    (body.rs:73), so nesting is only bounded by the input. [pb] stands for the parser
    of nested bodies, by remaining recursion. *)
(* body.rs:119-160, called with the literal limit 8 (hence not 0) *)
Definition q_body_type_msg (pb : nat -> parser body_structure)
  : parser (basic_fields * specific_fields) :=
  q_media_message ;;; sp ;;; b <- q_body_fields ;; sp ;;; e <- q_envelope ;; sp ;;;
  s <- pb 7 ;; sp ;;; n <- q_number ;;
  ret (b, SFMessage e s n).
(* body.rs:62-90 *)
Definition q_body_type_1part (pb : nat -> parser body_structure) (n : nat)
  : parser body_structure :=
  match n with
  | O => pfail
  | S _ =>
    ' (b, s) <- alt [q_body_type_msg pb; q_body_type_text; q_body_type_basic] ;;
    x <- opt (sp ;;; q_body_ext_1part) ;;
    ret (BSSingle b s x)
  end.
(* body.rs:446-482 *)
Definition q_body_type_mpart (pb : nat -> parser body_structure) (n : nat)
  : parser body_structure :=
  match n with
  | O => pfail
  | S _ =>
    bodies <- vec1 (many1 (pb n)) ;; sp ;;; sub <- q_string ;;
    x <- opt (sp ;;; q_body_ext_mpart) ;;
    ret (BSMulti bodies sub x)
  end.
(* body.rs:33-55; [fuel] bounds the nesting depth of the call stack and is never
   exhausted when it exceeds the input length (ParseFacts) *)
Fixpoint q_body_f (fuel n : nat) : parser body_structure :=
  match fuel with
  | O => panic
  | S fuel' =>
    match n with
    | O => pfail
    | S n' =>
      delimited (tg "(")
        (alt [q_body_type_1part (q_body_f fuel') n'; q_body_type_mpart (q_body_f fuel') n'])
        (tg ")")
    end
  end.
(* body.rs:27-31 *)
Definition q_body (n : nat) : parser body_structure := fun i => q_body_f (S (length i)) n i.

(** ** fetch.rs *)

(* fetch.rs:348-350, 339-344 *)
Definition q_header_list : parser (list astring) :=
  vec1 (delimited (tg "(") (sep_list1 sp q_astring) (tg ")")).
(* fetch.rs:324-326 *)
Definition q_section_part : parser (list N) := vec1 (sep_list1 (tg ".") q_nz_number).
(* fetch.rs:305-318 *)
Definition q_section_msgtext : parser part_specifier :=
  alt [kw "HEADER.FIELDS.NOT" ;;; sp ;;; pmap PSHeaderFieldsNot q_header_list;
       kw "HEADER.FIELDS" ;;; sp ;;; pmap PSHeaderFields q_header_list;
       value PSHeader (kw "HEADER"); value PSText (kw "TEXT")].
(* fetch.rs:331-336 *)
Definition q_section_text : parser part_specifier :=
  alt [q_section_msgtext; value PSMime (kw "MIME")].
(* fetch.rs:268-300; [unreachable!()] for MIME without a part *)
Definition q_section_spec : parser section :=
  alt [expect q_section_msgtext section_top;
       n <- q_section_part ;; o <- opt (tg "." ;;; q_section_text) ;; ret (section_sub n o)].
(* fetch.rs:263-265 *)
Definition q_section : parser (option section) := delimited (tg "[") (opt q_section_spec) (tg "]").

(* extensions/binary.rs:99-108 *)
Definition q_section_binary : parser (list N) :=
  delimited (tg "[") (pmap dflt (opt q_section_part)) (tg "]").
(* extensions/binary.rs:113-119 and the same code inlined in fetch.rs:57-61, 73-77 *)
Definition q_partial : parser (N * N) :=
  delimited (tg "<") (a <- q_number ;; tg "." ;;; b <- q_nz_number ;; ret (a, b)) (tg ">").

(* fetch.rs:43-119 *)
Definition q_fetch_att : parser item_name :=
  alt [value INEnvelope (kw "ENVELOPE"); value INFlags (kw "FLAGS");
       value INInternalDate (kw "INTERNALDATE"); value INBodyStructure (kw "BODYSTRUCTURE");
       (kw "BODY.PEEK" ;;; s <- q_section ;; p <- opt q_partial ;; ret (INBodyExt s p true));
       (kw "BODY" ;;; s <- q_section ;; p <- opt q_partial ;; ret (INBodyExt s p false));
       (kw "BINARY.PEEK" ;;; s <- q_section_binary ;; p <- opt q_partial ;;
          ret (INBinary s p true));
       (kw "BINARY" ;;; s <- q_section_binary ;; p <- opt q_partial ;;
          ret (INBinary s p false));
       (kw "BINARY.SIZE" ;;; s <- q_section_binary ;; ret (INBinarySize s));
       value INBody (kw "BODY"); value INUid (kw "UID");
       value INRfc822Header (kw "RFC822.HEADER"); value INRfc822Size (kw "RFC822.SIZE");
       value INRfc822Text (kw "RFC822.TEXT"); value INRfc822 (kw "RFC822");
       gate ext_condstore_qresync (value INModSeq (kw "MODSEQ"))].

(* fetch.rs:142-172 *)
Definition q_msg_att_dynamic : parser message_data_item :=
  alt [pmap (fun o => MDFlags (dflt o))
         (kw "FLAGS " ;;;
          delimited (char "("%byte) (opt (sep_list1 sp q_flag_fetch)) (char ")"%byte));
       gate ext_condstore_qresync
         (pmap MDModSeq
            (kw "MODSEQ " ;;;
             delimited (char "("%byte) q_mod_sequence_value (char ")"%byte)))].
(* fetch.rs:183-253 and extensions/metadata.rs:99-104 *)
Definition q_nstring8 : parser nstring8 :=
  alt [pmap N8NString q_nstring; pmap N8Literal8 q_literal8].
Definition q_msg_att_static : parser message_data_item :=
  alt [pmap MDEnvelope (kw "ENVELOPE " ;;; q_envelope);
       pmap MDInternalDate (kw "INTERNALDATE " ;;; q_date_time);
       pmap MDRfc822Header (kw "RFC822.HEADER " ;;; q_nstring);
       pmap MDRfc822Text (kw "RFC822.TEXT " ;;; q_nstring);
       pmap MDRfc822Size (kw "RFC822.SIZE " ;;; q_number);
       pmap MDRfc822 (kw "RFC822 " ;;; q_nstring);
       pmap MDBodyStructure (kw "BODYSTRUCTURE " ;;; q_body 8);
       pmap MDBody (kw "BODY " ;;; q_body 8);
       (kw "BODY" ;;; s <- q_section ;; o <- opt (delimited (tg "<") q_number (tg ">")) ;;
          sp ;;; d <- q_nstring ;; ret (MDBodyExt s o d));
       pmap MDUid (kw "UID " ;;; q_nz_number);
       (kw "BINARY" ;;; s <- q_section_binary ;; sp ;;; v <- q_nstring8 ;; ret (MDBinary s v));
       (kw "BINARY.SIZE" ;;; s <- q_section_binary ;; sp ;;; n <- q_number ;;
          ret (MDBinarySize s n))].
(* fetch.rs:126-135 *)
Definition q_msg_att : parser (list message_data_item) :=
  delimited (tg "(") (vec1 (sep_list1 sp (alt [q_msg_att_dynamic; q_msg_att_static]))) (tg ")").

(** ** search.rs *)

(* search.rs:103-228; the two nested [alt]s are one list *)
Fixpoint q_search_key (n : nat) : parser search_key :=
  match n with
  | O => pfail
  | S n' =>
    alt [value KAll (kw "ALL"); value KAnswered (kw "ANSWERED");
         pmap KBcc (kw "BCC" ;;; sp ;;; q_astring);
         pmap KBefore (kw "BEFORE" ;;; sp ;;; q_date);
         pmap KBody (kw "BODY" ;;; sp ;;; q_astring);
         pmap KCc (kw "CC" ;;; sp ;;; q_astring);
         value KDeleted (kw "DELETED"); value KFlagged (kw "FLAGGED");
         pmap KFrom (kw "FROM" ;;; sp ;;; q_astring);
         pmap KKeyword (kw "KEYWORD" ;;; sp ;;; q_atom);
         value KNew (kw "NEW"); value KOld (kw "OLD");
         pmap KOn (kw "ON" ;;; sp ;;; q_date);
         value KRecent (kw "RECENT"); value KSeen (kw "SEEN");
         pmap KSince (kw "SINCE" ;;; sp ;;; q_date);
         pmap KSubject (kw "SUBJECT" ;;; sp ;;; q_astring);
         pmap KText (kw "TEXT" ;;; sp ;;; q_astring);
         pmap KTo (kw "TO" ;;; sp ;;; q_astring);
         value KUnanswered (kw "UNANSWERED"); value KUndeleted (kw "UNDELETED");
         value KUnflagged (kw "UNFLAGGED");
         pmap KUnkeyword (kw "UNKEYWORD" ;;; sp ;;; q_atom);
         value KUnseen (kw "UNSEEN"); value KDraft (kw "DRAFT");
         (kw "HEADER" ;;; sp ;;; k <- q_astring ;; sp ;;; v <- q_astring ;; ret (KHeader k v));
         pmap KLarger (kw "LARGER" ;;; sp ;;; q_number);
         pmap KNot (kw "NOT" ;;; sp ;;; q_search_key n');
         (kw "OR" ;;; sp ;;; a <- q_search_key n' ;; sp ;;; b <- q_search_key n' ;;
            ret (KOr a b));
         pmap KSentBefore (kw "SENTBEFORE" ;;; sp ;;; q_date);
         pmap KSentOn (kw "SENTON" ;;; sp ;;; q_date);
         pmap KSentSince (kw "SENTSINCE" ;;; sp ;;; q_date);
         pmap KSmaller (kw "SMALLER" ;;; sp ;;; q_number);
         pmap KUid (kw "UID" ;;; sp ;;; q_sequence_set);
         value KUndraft (kw "UNDRAFT");
         gate ext_condstore_qresync q_search_modsequence;
         pmap KSequenceSet q_sequence_set;
         pmap KAnd (vec1 (delimited (tg "(") (sep_list1 sp (q_search_key n')) (tg ")")))]
  end.
(* search.rs:30-52 *)
Definition q_search_keys : parser (list search_key) := vec1 (sep_list1 sp (q_search_key 9)).
Definition q_search : parser command_body :=
  kw "SEARCH" ;;; cs <- opt (sp ;;; kw "CHARSET" ;;; sp ;;; q_charset) ;; sp ;;;
  ks <- q_search_keys ;; ret (CSearch cs ks false).
(* search.rs:231-241 *)
Definition q_search_criteria : parser (charset * list search_key) :=
  cs <- q_charset ;; sp ;;; ks <- q_search_keys ;; ret (cs, ks).

End CostBody.
