(** The parsers of ParseResp.v with their steps counted, and the steps of the public
    decoders. *)

From Verif Require Import Bytes Dec Features Nom Types Conv Base64 ParseCore ParseBody ParseCmd
  ParseResp CostNom CostCore CostBody CostCmd.

Section CostResp.
Context {F : features}.

(** ** extensions *)

(* extensions/metadata.rs:239-252 *)
Definition q_metadata_code : parser metadata_code :=
  alt [pmap MCLongEntries (kw "LONGENTRIES " ;;; q_number);
       pmap MCMaxSize (kw "MAXSIZE " ;;; q_number);
       value MCTooMany (kw "TOOMANY"); value MCNoPrivate (kw "NOPRIVATE")].
(* extensions/metadata.rs:195-218 *)
Definition q_metadata_resp : parser data :=
  kw "METADATA" ;;; sp ;;; m <- q_mailbox ;; sp ;;;
  it <- alt [pmap MRWithValues q_entry_values;
             pmap MRWithoutValues (vec1 (sep_list1 sp q_astring))] ;;
  ret (DMetadata m it).

(* extensions/namespace.rs:40-119; mailbox.rs:194-197 *)
Definition q_delimiter : parser (option byte) :=
  alt [pmap Some (delimited dquote q_quoted_char dquote); value None q_nil].
Definition q_namespace_ext : parser namespace_ext :=
  sp ;;; k <- q_string ;; sp ;;;
  vs <- vec1 (delimited (char "("%byte) (sep_list1 sp q_string) (char ")"%byte)) ;;
  ret (mkNsExt k vs).
Definition q_namespace_descr : parser namespace :=
  char "("%byte ;;; p <- q_string ;; sp ;;; d <- q_delimiter ;;
  es <- many0 q_namespace_ext ;; char ")"%byte ;;;
  ret (mkNamespace p d es).
Definition q_namespace : parser (list namespace) :=
  alt [value [] q_nil; delimited (char "("%byte) (many1 q_namespace_descr) (char ")"%byte)].
Definition q_namespace_response : parser data :=
  kw "NAMESPACE " ;;; a <- q_namespace ;; sp ;;; b <- q_namespace ;; sp ;;;
  c <- q_namespace ;; ret (DNamespace a b c).

(* extensions/quota.rs:68-137 *)
Definition q_quota_sp : parser unit :=
  if quirk_excessive_space_quota_resource then value tt (many1 sp) else value tt sp.
Definition q_quota_resource : parser quota_get :=
  r <- q_resource_name ;; q_quota_sp ;;; u <- q_number64 ;; q_quota_sp ;;;
  l <- q_number64 ;; ret (mkQuotaGet r u l).
Definition q_quota_response : parser data :=
  kw "QUOTA " ;;; r <- q_astring ;;
  qs <- vec1 (delimited (tg " (") (sep_list1 sp q_quota_resource) (tg ")")) ;;
  ret (DQuota r qs).
Definition q_quotaroot_response : parser data :=
  kw "QUOTAROOT " ;;; m <- q_mailbox ;; rs <- many0 (sp ;;; q_astring) ;;
  ret (DQuotaRoot m rs).

(* extensions/thread.rs:118-155; [n] is the remaining recursion *)
Fixpoint q_thread_list (n : nat) : parser thread :=
  match n with
  | O => pfail
  | S n' =>
    delimited (tg "(")
      (alt [(p <- vec1 (sep_list1 sp q_nz_number) ;;
             a <- opt (vec2 (sp ;;; many_m 2 (q_thread_list n'))) ;;
             ret (TMembers p a));
            pmap TNested (vec2 (many_m 2 (q_thread_list n')))])
      (tg ")")
  end.
(* extensions/thread.rs:84-93 *)
Definition q_thread_data : parser data :=
  kw "THREAD" ;;; o <- opt (sp ;;; many1 (q_thread_list 8)) ;; ret (DThread (dflt o)).

(* extensions/uidplus.rs:75-96 *)
Definition q_uid_range : parser uid_element :=
  a <- q_nz_number ;; tg ":" ;;; b <- q_nz_number ;; ret (UERange a b).
Definition q_uid_set : parser uid_set :=
  vec1 (sep_list1 (tg ",") (alt [q_uid_range; pmap UESingle q_nz_number])).
(* extensions/uidplus.rs:42-64 *)
Definition q_resp_code_apnd : parser code :=
  kw "APPENDUID " ;;; v <- q_nz_number ;; sp ;;; u <- q_nz_number ;; ret (CdAppendUid v u).
Definition q_resp_code_copy : parser code :=
  kw "COPYUID " ;;; v <- q_nz_number ;; sp ;;; s <- q_uid_set ;; sp ;;; d <- q_uid_set ;;
  ret (CdCopyUid v s d).

(* extensions/enable.rs:58-67 *)
Definition q_enable_data : parser data :=
  kw "ENABLED" ;;; pmap DEnabled (many0 (sp ;;; q_capability_enable)).

(** ** mailbox.rs *)

(* mailbox.rs:186-205 *)
Definition q_mailbox_list
  : parser (list flag_name_attribute * option byte * mailbox) :=
  fl <- delimited (tg "(") (opt q_mbx_list_flags) (tg ")") ;; sp ;;;
  d <- q_delimiter ;; sp ;;; m <- q_mailbox ;; ret (dflt fl, d, m).

(* mailbox.rs:103-160: the numbers and the optional MODSEQ of SEARCH and SORT *)
Definition q_nums : parser (list N) := many0 (sp ;;; q_nz_number).
Definition q_opt_modseq : parser (option N) :=
  if ext_condstore_qresync then opt (char bSP ;;; q_search_sort_mod_seq) else ret None.
Definition q_opt_sp (quirk : bool) : parser unit :=
  if quirk then value tt (opt sp) else ret tt.
(* mailbox.rs:87-180 *)
Definition q_mailbox_data : parser data :=
  alt [pmap DFlags (kw "FLAGS " ;;; q_flag_list);
       (kw "LIST " ;;; ' (fl, d, m) <- q_mailbox_list ;; ret (DList fl d m));
       (kw "LSUB " ;;; ' (fl, d, m) <- q_mailbox_list ;; ret (DLsub fl d m));
       (kw "SEARCH" ;;; l <- q_nums ;; m <- q_opt_modseq ;;
          q_opt_sp quirk_trailing_space_search ;;; ret (DSearch l m));
       (kw "SORT" ;;; l <- q_nums ;; m <- q_opt_modseq ;; ret (DSort l m));
       q_thread_data;
       (kw "STATUS " ;;; m <- q_mailbox ;;
          o <- delimited (tg " (") (opt q_status_att_list) (tg ")") ;;
          q_opt_sp quirk_trailing_space_status ;;; ret (DStatus m (dflt o)));
       gate ext_metadata q_metadata_resp;
       gate ext_namespace q_namespace_response;
       pmap DExists (terminated q_number (kw " EXISTS"));
       pmap DRecent (terminated q_number (kw " RECENT"));
       q_quotaroot_response; q_quota_response].

(** ** response.rs *)

(* response.rs:240-242, 224-236 *)
Definition q_capability : parser capability := pmap capability_from q_atom.
Definition q_capability_data : parser (list capability) :=
  vec1 (kw "CAPABILITY " ;;;
        terminated (sep_list1 sp q_capability) (q_opt_sp quirk_trailing_space_capability)).

(* response.rs:152-220 *)
Definition q_resp_text_code : parser code :=
  alt [value CdAlert (kw "ALERT");
       (kw "BADCHARSET" ;;; o <- opt (delimited (tg " (") (sep_list1 sp q_charset) (tg ")")) ;;
          ret (CdBadCharset (dflt o)));
       pmap CdCapability q_capability_data;
       value CdParse (kw "PARSE");
       (kw "PERMANENTFLAGS " ;;;
          o <- delimited (tg "(") (opt (sep_list1 sp q_flag_perm)) (tg ")") ;;
          ret (CdPermanentFlags (dflt o)));
       value CdReadOnly (kw "READ-ONLY"); value CdReadWrite (kw "READ-WRITE");
       value CdTryCreate (kw "TRYCREATE");
       pmap CdUidNext (kw "UIDNEXT " ;;; q_nz_number);
       pmap CdUidValidity (kw "UIDVALIDITY " ;;; q_nz_number);
       pmap CdUnseen (kw "UNSEEN " ;;; q_nz_number);
       value CdCompressionActive (kw "COMPRESSIONACTIVE");
       value CdOverQuota (kw "OVERQUOTA"); value CdTooBig (kw "TOOBIG");
       gate ext_metadata (pmap CdMetadata (kw "METADATA " ;;; q_metadata_code));
       value CdUnknownCte (kw "UNKNOWN-CTE");
       q_resp_code_apnd; q_resp_code_copy;
       value CdUidNotSticky (kw "UIDNOTSTICKY");
       gate ext_condstore_qresync
         (alt [pmap CdHighestModSeq (kw "HIGHESTMODSEQ " ;;; q_mod_sequence_value);
               value CdNoModSeq (kw "NOMODSEQ");
               pmap CdModified (kw "MODIFIED " ;;; q_sequence_set);
               value CdClosed (kw "CLOSED")])].

(* response.rs:94-100; CodeOther::unvalidated does not check *)
Definition q_code_other : parser code :=
  pmap CdOther (terminated (take_while is_code_other_char) (tg "]")).
(* response.rs:102-116 *)
Definition q_text_after_code : parser bytes :=
  if quirk_missing_text
  then alt [sp ;;; q_text; expect (value (bs "...") (peek crlf)) (str_of text_ok)]
  else sp ;;; q_text.
(* response.rs:82-122 *)
Definition q_resp_text : parser (option code * bytes) := fun i =>
  match opt (tg "[") i with
  | (ROk _ (Some _), n) =>
    let '(y, d) :=
      (tg "[" ;;; c <- alt [terminated q_resp_text_code (tg "]"); q_code_other] ;;
       t <- q_text_after_code ;; ret (Some c, t)) i in (y, S (n + d))
  | (ROk _ None, n) => let '(y, d) := pmap (fun t => (None, t)) q_text i in (y, S (n + d))
  | (RInc, n) => (RInc, S n)
  | (RErr, n) => (RErr, S n)
  | (RFail e, n) => (RFail e, S n)
  | (RPanic, n) => (RPanic, S n)
  end.

(* response.rs:65-79, 245-247 *)
Definition q_resp_cond_auth : parser (greeting_kind * (option code * bytes)) :=
  k <- alt [value GKOk (kw "OK "); value GKPreAuth (kw "PREAUTH ")] ;;
  t <- q_resp_text ;; ret (k, t).
Definition q_resp_cond_bye : parser (option code * bytes) := kw "BYE " ;;; q_resp_text.
(* response.rs:46-60 *)
Definition q_greeting : parser greeting :=
  ' (k, (c, t)) <- delimited (tg "* ")
      (alt [q_resp_cond_auth; pmap (fun ct => (GKBye, ct)) q_resp_cond_bye]) crlf ;;
  ret (mkGreeting k c t).

(* imap-types/src/response.rs CommandContinuationRequest::basic on a [Text] (the conversion
   to [Text] cannot fail) and ::base64; [None] is [Err], unwrapped by the callers.
   See [continuation_basic] in Cont.v for the API function on arbitrary strings. *)
(* response.rs:269-276 *)
Definition q_empty_continue_req : parser continuation :=
  expect (value (None, bs "...") (tg "+" ;;; crlf)) basic_of.
(* response.rs:279-322 *)
Definition q_until_crlf : parser bytes :=
  if quirk_crlf_relaxed
  then pmap strip_cr (take_while (fun b => negb (beq b bLF)))
  else take_until2 bCR bLF.
Definition q_continue_req : parser continuation :=
  expect
    (tg "+ " ;;;
     e <- alt [pmap inl (map_res q_until_crlf b64_decode); pmap inr q_resp_text] ;;
     crlf ;;; ret e)
    (fun e => match e with inl d => Some (CRBase64 d) | inr ct => basic_of ct end).

(* response.rs:362-375 *)
Definition q_resp_cond_state : parser status_body :=
  k <- alt [value SKOk (kw "OK "); value SKNo (kw "NO "); value SKBad (kw "BAD ")] ;;
  ' (c, t) <- q_resp_text ;; ret (mkStatusBody k c t).

(* response.rs:419-452 *)
Definition q_message_data : parser data :=
  alt [(s <- terminated q_nz_number sp ;;
        alt [value (DExpunge s) (kw "EXPUNGE"); pmap (DFetch s) (kw "FETCH " ;;; q_msg_att)]);
       gate ext_condstore_qresync
         (kw "VANISHED" ;;; e <- opt (kw " (EARLIER)") ;; sp ;;; s <- q_sequence_set ;;
          ret (DVanished (is_some e) s))].

(* response.rs:334-357 *)
Definition q_response_data : parser response :=
  delimited (tg "* ")
    (alt [pmap (fun b => RStatus (StUntagged b)) q_resp_cond_state;
          pmap (fun ct => RStatus (StBye (fst ct) (snd ct))) q_resp_cond_bye;
          pmap RData q_mailbox_data;
          pmap RData q_message_data;
          pmap (fun l => RData (DCapability l)) q_capability_data;
          pmap RData q_enable_data;
          gate ext_id (pmap (fun p => RData (DId p)) q_id)])
    crlf.

(* response.rs:378-407 *)
Definition q_response_tagged : parser status :=
  t <- q_tag_imap ;; sp ;;; b <- q_resp_cond_state ;; crlf ;;; ret (StTagged t b).
Definition q_response_fatal : parser status :=
  ' (c, t) <- delimited (tg "* ") q_resp_cond_bye crlf ;; ret (StBye c t).
Definition q_response_done : parser status := alt [q_response_tagged; q_response_fatal].

(* response.rs:252-265 *)
Definition q_response : parser response :=
  alt [gate quirk_empty_continue_req (pmap RContinue q_empty_continue_req);
       pmap RContinue q_continue_req; q_response_data; pmap RStatus q_response_done].

(** ** codec/decode.rs:302-400: steps of the public decoders; one more for the mapping of the
    result *)

Definition steps {A} (q : parser A) (i : bytes) : nat := S (snd (q i)).
Definition steps_greeting : bytes -> nat := steps q_greeting.
Definition steps_command : bytes -> nat := steps q_command.
Definition steps_authenticate_data : bytes -> nat := steps q_authenticate_data.
Definition steps_response : bytes -> nat := steps q_response.
Definition steps_idle_done : bytes -> nat := steps q_idle_done.

End CostResp.
