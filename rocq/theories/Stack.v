(** The decoders on a stack of limited size.

    Four parsers of imap-codec call themselves: [search_key_limited] (search.rs:103),
    [thread_list_limited] (extensions/thread.rs:118), [body_limited] (body.rs:33, through
    [body_type_msg_limited] and [body_type_mpart_limited]) and [body_extension_limited]
    (body.rs:416). Between two nested calls of them there is a fixed number of other frames, so
    the stack a decoder needs is given by how many calls of these four are open at a time.

    Here they are the parsers of ParseBody.v and ParseResp.v with one more argument, the number of such
    calls the stack has room for. A call that finds no room overflows the stack, which ends the
    process: [overflow] is a panic ([C20_no_panic]: the decoders never panic otherwise). The
    parsers through which the four are reached pass the room on and are otherwise unchanged. *)

From Verif Require Import Bytes Dec Features Nom Types Conv ParseCore ParseBody ParseCmd ParseResp Decode.

(** The end of the process by a stack overflow *)
Definition overflow {A} : parser A := fun _ => RPanic.

Section Stack.
Context {F : features}.

(** ** body.rs, fetch.rs *)
(* body.rs:416-438; [n] is the remaining recursion *)
Fixpoint s_body_extension (room n : nat) : parser body_extension :=
  match room with
  | O => overflow
  | S room' =>
    match n with
    | O => pfail
    | S n' =>
      alt [pmap BENString p_nstring; pmap BENumber p_number;
           pmap BEList (vec1 (delimited (tg "(") (sep_list1 sp (s_body_extension room' n')) (tg ")")))]
    end
  end.
(* body.rs:334-350, 497-513: the part shared by body_ext_1part and body_ext_mpart *)
Definition s_location (room : nat) : parser location :=
  sp ;;; l <- p_nstring ;; es <- many0 (sp ;;; s_body_extension room 8) ;; ret (mkLocation l es).
(* body.rs:334-350, 497-513 *)
Definition s_language (room : nat) : parser language :=
  sp ;;; l <- p_body_fld_lang ;; t <- opt (s_location room) ;; ret (mkLanguage l t).
(* body.rs:334-350, 497-513 *)
Definition s_disposition (room : nat) : parser disposition :=
  sp ;;; d <- p_body_fld_dsp ;; t <- opt (s_language room) ;; ret (mkDisposition d t).
(* body.rs:324-354 *)
Definition s_body_ext_1part (room : nat) : parser single_ext :=
  m <- p_nstring ;; t <- opt (s_disposition room) ;; ret (mkSingleExt m t).
(* body.rs:487-520 *)
Definition s_body_ext_mpart (room : nat) : parser multi_ext :=
  ps <- p_body_fld_param ;; t <- opt (s_disposition room) ;; ret (mkMultiExt ps t).
(* body.rs:62-90 *)
Definition s_body_type_1part (room : nat) (pb : nat -> parser body_structure) (n : nat)
  : parser body_structure :=
  match n with
  | O => pfail
  | S _ =>
    ' (b, s) <- alt [p_body_type_msg pb; p_body_type_text; p_body_type_basic] ;;
    x <- opt (sp ;;; s_body_ext_1part room) ;;
    ret (BSSingle b s x)
  end.
(* body.rs:446-482 *)
Definition s_body_type_mpart (room : nat) (pb : nat -> parser body_structure) (n : nat)
  : parser body_structure :=
  match n with
  | O => pfail
  | S _ =>
    bodies <- vec1 (many1 (pb n)) ;; sp ;;; sub <- p_string ;;
    x <- opt (sp ;;; s_body_ext_mpart room) ;;
    ret (BSMulti bodies sub x)
  end.
(* body.rs:27-55 *)
Fixpoint s_body (room n : nat) : parser body_structure :=
  match room with
  | O => overflow
  | S room' =>
    match n with
    | O => pfail
    | S n' =>
      delimited (tg "(")
        (alt [s_body_type_1part room' (s_body room') n';
             s_body_type_mpart room' (s_body room') n'])
        (tg ")")
    end
  end.
(* fetch.rs:183-253 *)
Definition s_msg_att_static (room : nat) : parser message_data_item :=
  alt [pmap MDEnvelope (kw "ENVELOPE " ;;; p_envelope);
       pmap MDInternalDate (kw "INTERNALDATE " ;;; p_date_time);
       pmap MDRfc822Header (kw "RFC822.HEADER " ;;; p_nstring);
       pmap MDRfc822Text (kw "RFC822.TEXT " ;;; p_nstring);
       pmap MDRfc822Size (kw "RFC822.SIZE " ;;; p_number);
       pmap MDRfc822 (kw "RFC822 " ;;; p_nstring);
       pmap MDBodyStructure (kw "BODYSTRUCTURE " ;;; s_body room 8);
       pmap MDBody (kw "BODY " ;;; s_body room 8);
       (kw "BODY" ;;; s <- p_section ;; o <- opt (delimited (tg "<") p_number (tg ">")) ;;
          sp ;;; d <- p_nstring ;; ret (MDBodyExt s o d));
       pmap MDUid (kw "UID " ;;; p_nz_number);
       (kw "BINARY" ;;; s <- p_section_binary ;; sp ;;; v <- p_nstring8 ;; ret (MDBinary s v));
       (kw "BINARY.SIZE" ;;; s <- p_section_binary ;; sp ;;; n <- p_number ;;
          ret (MDBinarySize s n))].
(* fetch.rs:126-135 *)
Definition s_msg_att (room : nat) : parser (list message_data_item) :=
  delimited (tg "(") (vec1 (sep_list1 sp (alt [p_msg_att_dynamic; s_msg_att_static room]))) (tg ")").

(** ** search.rs and the commands that search *)
(* search.rs:103-228; the two nested [alt]s are one list *)
Fixpoint s_search_key (room n : nat) : parser search_key :=
  match room with
  | O => overflow
  | S room' =>
    match n with
    | O => pfail
    | S n' =>
      alt [value KAll (kw "ALL"); value KAnswered (kw "ANSWERED");
           pmap KBcc (kw "BCC" ;;; sp ;;; p_astring);
           pmap KBefore (kw "BEFORE" ;;; sp ;;; p_date);
           pmap KBody (kw "BODY" ;;; sp ;;; p_astring);
           pmap KCc (kw "CC" ;;; sp ;;; p_astring);
           value KDeleted (kw "DELETED"); value KFlagged (kw "FLAGGED");
           pmap KFrom (kw "FROM" ;;; sp ;;; p_astring);
           pmap KKeyword (kw "KEYWORD" ;;; sp ;;; p_atom);
           value KNew (kw "NEW"); value KOld (kw "OLD");
           pmap KOn (kw "ON" ;;; sp ;;; p_date);
           value KRecent (kw "RECENT"); value KSeen (kw "SEEN");
           pmap KSince (kw "SINCE" ;;; sp ;;; p_date);
           pmap KSubject (kw "SUBJECT" ;;; sp ;;; p_astring);
           pmap KText (kw "TEXT" ;;; sp ;;; p_astring);
           pmap KTo (kw "TO" ;;; sp ;;; p_astring);
           value KUnanswered (kw "UNANSWERED"); value KUndeleted (kw "UNDELETED");
           value KUnflagged (kw "UNFLAGGED");
           pmap KUnkeyword (kw "UNKEYWORD" ;;; sp ;;; p_atom);
           value KUnseen (kw "UNSEEN"); value KDraft (kw "DRAFT");
           (kw "HEADER" ;;; sp ;;; k <- p_astring ;; sp ;;; v <- p_astring ;; ret (KHeader k v));
           pmap KLarger (kw "LARGER" ;;; sp ;;; p_number);
           pmap KNot (kw "NOT" ;;; sp ;;; s_search_key room' n');
           (kw "OR" ;;; sp ;;; a <- s_search_key room' n' ;; sp ;;; b <- s_search_key room' n' ;;
              ret (KOr a b));
           pmap KSentBefore (kw "SENTBEFORE" ;;; sp ;;; p_date);
           pmap KSentOn (kw "SENTON" ;;; sp ;;; p_date);
           pmap KSentSince (kw "SENTSINCE" ;;; sp ;;; p_date);
           pmap KSmaller (kw "SMALLER" ;;; sp ;;; p_number);
           pmap KUid (kw "UID" ;;; sp ;;; p_sequence_set);
           value KUndraft (kw "UNDRAFT");
           gate ext_condstore_qresync p_search_modsequence;
           pmap KSequenceSet p_sequence_set;
           pmap KAnd (vec1 (delimited (tg "(") (sep_list1 sp (s_search_key room' n')) (tg ")")))]
    end
  end.
(* search.rs:30-52 *)
Definition s_search_keys (room : nat) : parser (list search_key) := vec1 (sep_list1 sp (s_search_key room 9)).
(* search.rs:30-52 *)
Definition s_search (room : nat) : parser command_body :=
  kw "SEARCH" ;;; cs <- opt (sp ;;; kw "CHARSET" ;;; sp ;;; p_charset) ;; sp ;;;
  ks <- s_search_keys room ;; ret (CSearch cs ks false).
(* search.rs:231-241 *)
Definition s_search_criteria (room : nat) : parser (charset * list search_key) :=
  cs <- p_charset ;; sp ;;; ks <- s_search_keys room ;; ret (cs, ks).
(* extensions/sort.rs:26-88 *)
Definition s_sort (room : nat) : parser command_body :=
  u <- opt (kw "UID ") ;; kw "SORT " ;;; sc <- p_sort_criteria ;; sp ;;;
  ' (cs, ks) <- s_search_criteria room ;; ret (CSort sc cs ks (is_some u)).
(* extensions/thread.rs:50-79 *)
Definition s_thread (room : nat) : parser command_body :=
  u <- opt (kw "UID ") ;; kw "THREAD " ;;;
  a <- pmap threading_algorithm_from p_atom ;; sp ;;;
  ' (cs, ks) <- s_search_criteria room ;; ret (CThread a cs ks (is_some u)).
(* command.rs:786-805 *)
Definition s_uid (room : nat) : parser command_body :=
  kw "UID" ;;; sp ;;; expect (alt [p_copy; p_fetch; s_search room; p_store; p_move]) set_uid.
(* command.rs:546-562 *)
Definition s_command_select (room : nat) : parser command_body :=
  alt [value CCheck (kw "CHECK"); value CClose (kw "CLOSE"); value CExpunge (kw "EXPUNGE");
       p_uid_expunge; p_copy; p_fetch; p_store; s_uid room; s_search room; s_sort room; s_thread room;
       value CUnselect (kw "UNSELECT"); p_move].
(* command.rs:73-104 *)
Definition s_command_body (room : nat) : parser command_body :=
  terminated (alt [p_command_any; p_command_auth; p_command_nonauth; s_command_select room]) crlf.
(* command.rs:73-104 *)
Definition s_command (room : nat) : parser command :=
  t <- terminated p_tag_imap sp ;;
  (fun i => fill_tag t (pmap (mkCommand t) (s_command_body room) i)).

(** ** Responses *)
(* extensions/thread.rs:118-155; [n] is the remaining recursion *)
Fixpoint s_thread_list (room n : nat) : parser thread :=
  match room with
  | O => overflow
  | S room' =>
    match n with
    | O => pfail
    | S n' =>
      delimited (tg "(")
        (alt [(p <- vec1 (sep_list1 sp p_nz_number) ;;
               a <- opt (vec2 (sp ;;; many_m 2 (s_thread_list room' n'))) ;;
               ret (TMembers p a));
              pmap TNested (vec2 (many_m 2 (s_thread_list room' n')))])
        (tg ")")
    end
  end.
(* extensions/thread.rs:84-93 *)
Definition s_thread_data (room : nat) : parser data :=
  kw "THREAD" ;;; o <- opt (sp ;;; many1 (s_thread_list room 8)) ;; ret (DThread (dflt o)).
(* mailbox.rs:87-180 *)
Definition s_mailbox_data (room : nat) : parser data :=
  alt [pmap DFlags (kw "FLAGS " ;;; p_flag_list);
       (kw "LIST " ;;; ' (fl, d, m) <- p_mailbox_list ;; ret (DList fl d m));
       (kw "LSUB " ;;; ' (fl, d, m) <- p_mailbox_list ;; ret (DLsub fl d m));
       (kw "SEARCH" ;;; l <- p_nums ;; m <- p_opt_modseq ;;
          p_opt_sp quirk_trailing_space_search ;;; ret (DSearch l m));
       (kw "SORT" ;;; l <- p_nums ;; m <- p_opt_modseq ;; ret (DSort l m));
       s_thread_data room;
       (kw "STATUS " ;;; m <- p_mailbox ;;
          o <- delimited (tg " (") (opt p_status_att_list) (tg ")") ;;
          p_opt_sp quirk_trailing_space_status ;;; ret (DStatus m (dflt o)));
       gate ext_metadata p_metadata_resp;
       gate ext_namespace p_namespace_response;
       pmap DExists (terminated p_number (kw " EXISTS"));
       pmap DRecent (terminated p_number (kw " RECENT"));
       p_quotaroot_response; p_quota_response].
(* response.rs:419-452 *)
Definition s_message_data (room : nat) : parser data :=
  alt [(s <- terminated p_nz_number sp ;;
        alt [value (DExpunge s) (kw "EXPUNGE"); pmap (DFetch s) (kw "FETCH " ;;; s_msg_att room)]);
       gate ext_condstore_qresync
         (kw "VANISHED" ;;; e <- opt (kw " (EARLIER)") ;; sp ;;; s <- p_sequence_set ;;
          ret (DVanished (is_some e) s))].
(* response.rs:334-357 *)
Definition s_response_data (room : nat) : parser response :=
  delimited (tg "* ")
    (alt [pmap (fun b => RStatus (StUntagged b)) p_resp_cond_state;
          pmap (fun ct => RStatus (StBye (fst ct) (snd ct))) p_resp_cond_bye;
          pmap RData (s_mailbox_data room);
          pmap RData (s_message_data room);
          pmap (fun l => RData (DCapability l)) p_capability_data;
          pmap RData p_enable_data;
          gate ext_id (pmap (fun p => RData (DId p)) p_id)])
    crlf.
(* response.rs:252-265 *)
Definition s_response (room : nat) : parser response :=
  alt [gate quirk_empty_continue_req (pmap RContinue p_empty_continue_req);
       pmap RContinue p_continue_req; s_response_data room; pmap RStatus p_response_done].

(** ** codec/decode.rs *)
(* codec/decode.rs:318-344 *)
Definition decode_command_within (room : nat) (i : bytes) : outcome command_error command :=
  match s_command room i with
  | ROk r a => Decoded r a
  | RInc => Error CmdIncomplete
  | RFail (FLit (Some t) n m) => Error (CmdLiteralFound t n m)
  | RFail (FLit None _ _) => Panic
  | RFail FOther | RErr => Error CmdFailed
  | RPanic => Panic
  end.
(* codec/decode.rs:346-366 *)
Definition decode_response_within (room : nat) (i : bytes) : outcome response_error response :=
  match s_response room i with
  | ROk r a => Decoded r a
  | RInc => Error RspIncomplete
  | RFail (FLit _ n _) => Error (RspLiteralFound n)
  | RFail FOther | RErr => Error RspFailed
  | RPanic => Panic
  end.

End Stack.
