(** Greetings and responses: imap-codec/src/response.rs, mailbox.rs (mailbox_data) and the
    response parts of imap-codec/src/extensions. *)

From Verif Require Import Bytes Dec Features Nom Types Conv Base64 ParseCore ParseBody ParseCmd.

Section ParseResp.
Context {F : features}.

(** ** extensions *)

(* extensions/metadata.rs:239-252 *)
Definition p_metadata_code : parser metadata_code :=
  alt [pmap MCLongEntries (kw "LONGENTRIES " ;;; p_number);
       pmap MCMaxSize (kw "MAXSIZE " ;;; p_number);
       value MCTooMany (kw "TOOMANY"); value MCNoPrivate (kw "NOPRIVATE")].
(* extensions/metadata.rs:195-218 *)
Definition p_metadata_resp : parser data :=
  kw "METADATA" ;;; sp ;;; m <- p_mailbox ;; sp ;;;
  it <- alt [pmap MRWithValues p_entry_values;
             pmap MRWithoutValues (vec1 (sep_list1 sp p_astring))] ;;
  ret (DMetadata m it).

(* extensions/namespace.rs:40-119; mailbox.rs:194-197 *)
Definition p_delimiter : parser (option byte) :=
  alt [pmap Some (delimited dquote p_quoted_char dquote); value None p_nil].
Definition p_namespace_ext : parser namespace_ext :=
  sp ;;; k <- p_string ;; sp ;;;
  vs <- vec1 (delimited (char "("%byte) (sep_list1 sp p_string) (char ")"%byte)) ;;
  ret (mkNsExt k vs).
Definition p_namespace_descr : parser namespace :=
  char "("%byte ;;; p <- p_string ;; sp ;;; d <- p_delimiter ;;
  es <- many0 p_namespace_ext ;; char ")"%byte ;;;
  ret (mkNamespace p d es).
Definition p_namespace : parser (list namespace) :=
  alt [value [] p_nil; delimited (char "("%byte) (many1 p_namespace_descr) (char ")"%byte)].
Definition p_namespace_response : parser data :=
  kw "NAMESPACE " ;;; a <- p_namespace ;; sp ;;; b <- p_namespace ;; sp ;;;
  c <- p_namespace ;; ret (DNamespace a b c).

(* extensions/quota.rs:68-137 *)
Definition p_quota_sp : parser unit :=
  if quirk_excessive_space_quota_resource then value tt (many1 sp) else value tt sp.
Definition p_quota_resource : parser quota_get :=
  r <- p_resource_name ;; p_quota_sp ;;; u <- p_number64 ;; p_quota_sp ;;;
  l <- p_number64 ;; ret (mkQuotaGet r u l).
Definition p_quota_response : parser data :=
  kw "QUOTA " ;;; r <- p_astring ;;
  qs <- vec1 (delimited (tg " (") (sep_list1 sp p_quota_resource) (tg ")")) ;;
  ret (DQuota r qs).
Definition p_quotaroot_response : parser data :=
  kw "QUOTAROOT " ;;; m <- p_mailbox ;; rs <- many0 (sp ;;; p_astring) ;;
  ret (DQuotaRoot m rs).

(* extensions/thread.rs:118-155; [n] is the remaining recursion *)
Fixpoint p_thread_list (n : nat) : parser thread :=
  match n with
  | O => pfail
  | S n' =>
    delimited (tg "(")
      (alt [(p <- vec1 (sep_list1 sp p_nz_number) ;;
             a <- opt (vec2 (sp ;;; many_m 2 (p_thread_list n'))) ;;
             ret (TMembers p a));
            pmap TNested (vec2 (many_m 2 (p_thread_list n')))])
      (tg ")")
  end.
(* extensions/thread.rs:84-93 *)
Definition p_thread_data : parser data :=
  kw "THREAD" ;;; o <- opt (sp ;;; many1 (p_thread_list 8)) ;; ret (DThread (dflt o)).

(* extensions/uidplus.rs:75-96 *)
Definition p_uid_range : parser uid_element :=
  a <- p_nz_number ;; tg ":" ;;; b <- p_nz_number ;; ret (UERange a b).
Definition p_uid_set : parser uid_set :=
  vec1 (sep_list1 (tg ",") (alt [p_uid_range; pmap UESingle p_nz_number])).
(* extensions/uidplus.rs:42-64 *)
Definition p_resp_code_apnd : parser code :=
  kw "APPENDUID " ;;; v <- p_nz_number ;; sp ;;; u <- p_nz_number ;; ret (CdAppendUid v u).
Definition p_resp_code_copy : parser code :=
  kw "COPYUID " ;;; v <- p_nz_number ;; sp ;;; s <- p_uid_set ;; sp ;;; d <- p_uid_set ;;
  ret (CdCopyUid v s d).

(* extensions/enable.rs:58-67 *)
Definition p_enable_data : parser data :=
  kw "ENABLED" ;;; pmap DEnabled (many0 (sp ;;; p_capability_enable)).

(** ** mailbox.rs *)

(* mailbox.rs:186-205 *)
Definition p_mailbox_list
  : parser (list flag_name_attribute * option byte * mailbox) :=
  fl <- delimited (tg "(") (opt p_mbx_list_flags) (tg ")") ;; sp ;;;
  d <- p_delimiter ;; sp ;;; m <- p_mailbox ;; ret (dflt fl, d, m).

(* mailbox.rs:103-160: the numbers and the optional MODSEQ of SEARCH and SORT *)
Definition p_nums : parser (list N) := many0 (sp ;;; p_nz_number).
Definition p_opt_modseq : parser (option N) :=
  if ext_condstore_qresync then opt (char bSP ;;; p_search_sort_mod_seq) else ret None.
Definition p_opt_sp (quirk : bool) : parser unit :=
  if quirk then value tt (opt sp) else ret tt.
(* mailbox.rs:87-180 *)
Definition p_mailbox_data : parser data :=
  alt [pmap DFlags (kw "FLAGS " ;;; p_flag_list);
       (kw "LIST " ;;; ' (fl, d, m) <- p_mailbox_list ;; ret (DList fl d m));
       (kw "LSUB " ;;; ' (fl, d, m) <- p_mailbox_list ;; ret (DLsub fl d m));
       (kw "SEARCH" ;;; l <- p_nums ;; m <- p_opt_modseq ;;
          p_opt_sp quirk_trailing_space_search ;;; ret (DSearch l m));
       (kw "SORT" ;;; l <- p_nums ;; m <- p_opt_modseq ;; ret (DSort l m));
       p_thread_data;
       (kw "STATUS " ;;; m <- p_mailbox ;;
          o <- delimited (tg " (") (opt p_status_att_list) (tg ")") ;;
          p_opt_sp quirk_trailing_space_status ;;; ret (DStatus m (dflt o)));
       gate ext_metadata p_metadata_resp;
       gate ext_namespace p_namespace_response;
       pmap DExists (terminated p_number (kw " EXISTS"));
       pmap DRecent (terminated p_number (kw " RECENT"));
       p_quotaroot_response; p_quota_response].

(** ** response.rs *)

(* response.rs:240-242, 224-236 *)
Definition p_capability : parser capability := pmap capability_from p_atom.
Definition p_capability_data : parser (list capability) :=
  vec1 (kw "CAPABILITY " ;;;
        terminated (sep_list1 sp p_capability) (p_opt_sp quirk_trailing_space_capability)).

(* response.rs:152-220 *)
Definition p_resp_text_code : parser code :=
  alt [value CdAlert (kw "ALERT");
       (kw "BADCHARSET" ;;; o <- opt (delimited (tg " (") (sep_list1 sp p_charset) (tg ")")) ;;
          ret (CdBadCharset (dflt o)));
       pmap CdCapability p_capability_data;
       value CdParse (kw "PARSE");
       (kw "PERMANENTFLAGS " ;;;
          o <- delimited (tg "(") (opt (sep_list1 sp p_flag_perm)) (tg ")") ;;
          ret (CdPermanentFlags (dflt o)));
       value CdReadOnly (kw "READ-ONLY"); value CdReadWrite (kw "READ-WRITE");
       value CdTryCreate (kw "TRYCREATE");
       pmap CdUidNext (kw "UIDNEXT " ;;; p_nz_number);
       pmap CdUidValidity (kw "UIDVALIDITY " ;;; p_nz_number);
       pmap CdUnseen (kw "UNSEEN " ;;; p_nz_number);
       value CdCompressionActive (kw "COMPRESSIONACTIVE");
       value CdOverQuota (kw "OVERQUOTA"); value CdTooBig (kw "TOOBIG");
       gate ext_metadata (pmap CdMetadata (kw "METADATA " ;;; p_metadata_code));
       value CdUnknownCte (kw "UNKNOWN-CTE");
       p_resp_code_apnd; p_resp_code_copy;
       value CdUidNotSticky (kw "UIDNOTSTICKY");
       gate ext_condstore_qresync
         (alt [pmap CdHighestModSeq (kw "HIGHESTMODSEQ " ;;; p_mod_sequence_value);
               value CdNoModSeq (kw "NOMODSEQ");
               pmap CdModified (kw "MODIFIED " ;;; p_sequence_set);
               value CdClosed (kw "CLOSED")])].

(* response.rs:94-100; CodeOther::unvalidated does not check *)
Definition is_code_other_char (b : byte) : bool :=
  negb (beq b "]"%byte) && negb (beq b bCR) && negb (beq b bLF).
Definition p_code_other : parser code :=
  pmap CdOther (terminated (take_while is_code_other_char) (tg "]")).
(* response.rs:102-116 *)
Definition p_text_after_code : parser bytes :=
  if quirk_missing_text
  then alt [sp ;;; p_text; expect (value (bs "...") (peek crlf)) (str_of text_ok)]
  else sp ;;; p_text.
(* response.rs:82-122 *)
Definition p_resp_text : parser (option code * bytes) := fun i =>
  match opt (tg "[") i with
  | ROk _ (Some _) =>
    (tg "[" ;;; c <- alt [terminated p_resp_text_code (tg "]"); p_code_other] ;;
     t <- p_text_after_code ;; ret (Some c, t)) i
  | ROk _ None => pmap (fun t => (None, t)) p_text i
  | RInc => RInc
  | RErr => RErr
  | RFail e => RFail e
  | RPanic => RPanic
  end.

(* response.rs:65-79, 245-247 *)
Definition p_resp_cond_auth : parser (greeting_kind * (option code * bytes)) :=
  k <- alt [value GKOk (kw "OK "); value GKPreAuth (kw "PREAUTH ")] ;;
  t <- p_resp_text ;; ret (k, t).
Definition p_resp_cond_bye : parser (option code * bytes) := kw "BYE " ;;; p_resp_text.
(* response.rs:46-60 *)
Definition p_greeting : parser greeting :=
  ' (k, (c, t)) <- delimited (tg "* ")
      (alt [p_resp_cond_auth; pmap (fun ct => (GKBye, ct)) p_resp_cond_bye]) crlf ;;
  ret (mkGreeting k c t).

(* imap-types/src/response.rs CommandContinuationRequest::basic on a [Text] (the conversion
   to [Text] cannot fail) and ::base64; [None] is [Err], unwrapped by the callers.
   See [continuation_basic] in Cont.v for the API function on arbitrary strings. *)
Definition basic_of (ct : option code * bytes) : option continuation :=
  let '(c, t) := ct in
  match c with
  | Some _ => Some (CRBasic c t)
  | None =>
    if starts_with (bs "[") t || is_some (b64_decode t) then None else Some (CRBasic None t)
  end.
(* response.rs:269-276 *)
Definition p_empty_continue_req : parser continuation :=
  expect (value (None, bs "...") (tg "+" ;;; crlf)) basic_of.
(* response.rs:279-322 *)
Definition strip_cr (s : bytes) : bytes :=
  match rev s with
  | c :: r => if beq c bCR then rev r else s
  | [] => s
  end.
Definition p_until_crlf : parser bytes :=
  if quirk_crlf_relaxed
  then pmap strip_cr (take_while (fun b => negb (beq b bLF)))
  else take_until2 bCR bLF.
Definition p_continue_req : parser continuation :=
  expect
    (tg "+ " ;;;
     e <- alt [pmap inl (map_res p_until_crlf b64_decode); pmap inr p_resp_text] ;;
     crlf ;;; ret e)
    (fun e => match e with inl d => Some (CRBase64 d) | inr ct => basic_of ct end).

(* response.rs:362-375 *)
Definition p_resp_cond_state : parser status_body :=
  k <- alt [value SKOk (kw "OK "); value SKNo (kw "NO "); value SKBad (kw "BAD ")] ;;
  ' (c, t) <- p_resp_text ;; ret (mkStatusBody k c t).

(* response.rs:419-452 *)
Definition p_message_data : parser data :=
  alt [(s <- terminated p_nz_number sp ;;
        alt [value (DExpunge s) (kw "EXPUNGE"); pmap (DFetch s) (kw "FETCH " ;;; p_msg_att)]);
       gate ext_condstore_qresync
         (kw "VANISHED" ;;; e <- opt (kw " (EARLIER)") ;; sp ;;; s <- p_sequence_set ;;
          ret (DVanished (is_some e) s))].

(* response.rs:334-357 *)
Definition p_response_data : parser response :=
  delimited (tg "* ")
    (alt [pmap (fun b => RStatus (StUntagged b)) p_resp_cond_state;
          pmap (fun ct => RStatus (StBye (fst ct) (snd ct))) p_resp_cond_bye;
          pmap RData p_mailbox_data;
          pmap RData p_message_data;
          pmap (fun l => RData (DCapability l)) p_capability_data;
          pmap RData p_enable_data;
          gate ext_id (pmap (fun p => RData (DId p)) p_id)])
    crlf.

(* response.rs:378-407 *)
Definition p_response_tagged : parser status :=
  t <- p_tag_imap ;; sp ;;; b <- p_resp_cond_state ;; crlf ;;; ret (StTagged t b).
Definition p_response_fatal : parser status :=
  ' (c, t) <- delimited (tg "* ") p_resp_cond_bye crlf ;; ret (StBye c t).
Definition p_response_done : parser status := alt [p_response_tagged; p_response_fatal].

(* response.rs:252-265 *)
Definition p_response : parser response :=
  alt [gate quirk_empty_continue_req (pmap RContinue p_empty_continue_req);
       pmap RContinue p_continue_req; p_response_data; pmap RStatus p_response_done].

End ParseResp.
