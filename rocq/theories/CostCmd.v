(** The parsers of ParseCmd.v with their steps counted. *)

From Verif Require Import Bytes Dec Features Nom Types Conv ParseCore ParseBody ParseCmd CostNom
  CostCore CostBody.

Section CostCmd.
Context {F : features}.

(** ** extensions *)

(* extensions/id.rs:31-75 *)
Definition q_id_param : parser (istring * nstring) :=
  k <- q_string ;; sp ;;; v <- q_nstring ;; ret (k, v).
Definition q_id_params_list : parser (option (list (istring * nstring))) :=
  alt [pmap Some
         (delimited (tg "(")
            (if quirk_trailing_space_id
             then terminated (sep_list0 sp q_id_param) (opt sp)
             else sep_list0 sp q_id_param)
            (tg ")"));
       value None q_nil].
Definition q_id : parser (option (list (istring * nstring))) := kw "ID " ;;; q_id_params_list.

(* extensions/idle.rs:35-37, 53-55 *)
Definition q_idle : parser command_body := value CIdle (kw "IDLE").
Definition q_idle_done : parser unit := kw "DONE" ;;; crlf ;;; ret tt.

(* extensions/enable.rs:37-55 *)
Definition q_capability_enable : parser capability_enable := pmap capability_enable_from q_atom.
Definition q_enable : parser command_body :=
  kw "ENABLE" ;;; pmap CEnable (vec1 (many1 (sp ;;; q_capability_enable))).

(* extensions/compress.rs:24-33 *)
Definition q_compress : parser command_body :=
  kw "COMPRESS " ;;; pmap CCompress (value Deflate (kw "DEFLATE")).

(* extensions/quota.rs:32-57, 96-98, 144-165 *)
Definition q_getquota : parser command_body := kw "GETQUOTA " ;;; pmap CGetQuota q_astring.
Definition q_getquotaroot : parser command_body :=
  kw "GETQUOTAROOT " ;;; pmap CGetQuotaRoot q_mailbox.
Definition q_resource_name : parser resource := pmap resource_from q_atom.
Definition q_setquota_resource : parser quota_set :=
  r <- q_resource_name ;; sp ;;; l <- q_number64 ;; ret (mkQuotaSet r l).
Definition q_setquota : parser command_body :=
  kw "SETQUOTA " ;;; r <- q_astring ;;
  qs <- delimited (tg " (") (sep_list0 sp q_setquota_resource) (tg ")") ;;
  ret (CSetQuota r qs).

(* extensions/metadata.rs:37-104; [Entry::try_from] never fails *)
Definition q_entry_value : parser entry_value :=
  e <- q_astring ;; sp ;;; v <- q_nstring8 ;; ret (mkEntryValue e v).
Definition q_entry_values : parser (list entry_value) :=
  vec1 (delimited (tg "(") (sep_list1 sp q_entry_value) (tg ")")).
Definition q_setmetadata : parser command_body :=
  kw "SETMETADATA" ;;; sp ;;; m <- q_mailbox ;; sp ;;; es <- q_entry_values ;;
  ret (CSetMetadata m es).
(* extensions/metadata.rs:111-183 *)
Definition q_getmetadata_option : parser get_metadata_option :=
  alt [pmap GMMaxSize (kw "MAXSIZE " ;;; q_number);
       pmap GMDepth
         (kw "DEPTH " ;;;
          alt [value DepthNull (tg "0"); value DepthOne (tg "1");
               value DepthInfinity (kw "infinity")])].
Definition q_getmetadata_options : parser (list get_metadata_option) :=
  vec1 (delimited (tg "(") (sep_list1 sp q_getmetadata_option) (tg ")")).
Definition q_entries : parser (list astring) :=
  alt [pmap (fun e => [e]) q_astring;
       vec1 (delimited (tg "(") (sep_list1 sp q_astring) (tg ")"))].
Definition q_getmetadata : parser command_body :=
  kw "GETMETADATA" ;;; o <- opt (sp ;;; q_getmetadata_options) ;;
  sp ;;; m <- q_mailbox ;; sp ;;; es <- q_entries ;;
  ret (CGetMetadata (dflt o) m es).

(* extensions/namespace.rs:30-32 *)
Definition q_namespace_command : parser command_body := value CNamespace (kw "NAMESPACE").

(* extensions/uidplus.rs:28-33 *)
Definition q_uid_expunge : parser command_body :=
  kw "UID EXPUNGE " ;;; pmap CExpungeUid q_sequence_set.

(* extensions/move.rs:12-25 *)
Definition q_move : parser command_body :=
  kw "MOVE" ;;; sp ;;; s <- q_sequence_set ;; sp ;;; m <- q_mailbox ;; ret (CMove s m false).

(* extensions/sort.rs:26-88 *)
Definition q_sort_key : parser sort_key :=
  alt [value SKArrival (kw "ARRIVAL"); value SKCc (kw "CC"); value SKDate (kw "DATE");
       value SKFrom (kw "FROM"); value SKSize (kw "SIZE"); value SKSubject (kw "SUBJECT");
       value SKTo (kw "TO"); value SKDisplayFrom (kw "DISPLAYFROM");
       value SKDisplayTo (kw "DISPLAYTO")].
Definition q_sort_criterion : parser sort_criterion :=
  r <- opt (kw "REVERSE ") ;; k <- q_sort_key ;; ret (mkSort (is_some r) k).
Definition q_sort_criteria : parser (list sort_criterion) :=
  delimited (tg "(") (vec1 (sep_list1 sp q_sort_criterion)) (tg ")").
Definition q_sort : parser command_body :=
  u <- opt (kw "UID ") ;; kw "SORT " ;;; sc <- q_sort_criteria ;; sp ;;;
  ' (cs, ks) <- q_search_criteria ;; ret (CSort sc cs ks (is_some u)).

(* extensions/thread.rs:50-79 *)
Definition q_thread : parser command_body :=
  u <- opt (kw "UID ") ;; kw "THREAD " ;;;
  a <- pmap threading_algorithm_from q_atom ;; sp ;;;
  ' (cs, ks) <- q_search_criteria ;; ret (CThread a cs ks (is_some u)).

(** ** command.rs *)

(* command.rs:114-125 *)
Definition q_command_any : parser command_body :=
  alt [value CCapability (kw "CAPABILITY"); value CLogout (kw "LOGOUT");
       value CNoop (kw "NOOP"); gate ext_id (pmap CId q_id)].

(* command.rs:379-409 *)
Definition q_select_param : parser select_parameter :=
  alt [value SPCondStore (kw "CONDSTORE");
       (kw "QRESYNC (" ;;;
        v <- q_nz_number ;; sp ;;; m <- q_mod_sequence_value ;;
        k <- opt (sp ;;; q_sequence_set) ;;
        d <- opt (sp ;;; delimited (char "("%byte)
                           (a <- q_sequence_set ;; sp ;;; b <- q_sequence_set ;; ret (a, b))
                           (char ")"%byte)) ;;
        char ")"%byte ;;;
        ret (SPQResync v m k d))].
(* command.rs:330-332 and the [opt] of select and examine; without the feature the field
   does not exist ([[]] in the model) *)
Definition q_select_params : parser (list select_parameter) :=
  if ext_condstore_qresync
  then pmap dflt (opt (delimited (tg " (") (sep_list1 sp q_select_param) (tg ")")))
  else ret [].

(* command.rs:179-206 *)
Definition q_append : parser command_body :=
  kw "APPEND " ;;; m <- q_mailbox ;; fl <- opt (sp ;;; q_flag_list) ;;
  d <- opt (sp ;;; q_date_time) ;; sp ;;;
  msg <- alt [pmap LLiteral q_literal; pmap LLiteral8 q_literal8] ;;
  ret (CAppend m (dflt fl) d msg).
(* command.rs:208-250 *)
Definition q_create : parser command_body := kw "CREATE " ;;; pmap CCreate q_mailbox.
Definition q_delete : parser command_body := kw "DELETE " ;;; pmap CDelete q_mailbox.
Definition q_examine : parser command_body :=
  kw "EXAMINE " ;;; m <- q_mailbox ;; ps <- q_select_params ;; ret (CExamine m ps).
(* command.rs:253-280 *)
Definition q_list : parser command_body :=
  kw "LIST " ;;; m <- q_mailbox ;; sp ;;; l <- q_list_mailbox ;; ret (CList m l).
Definition q_lsub : parser command_body :=
  kw "LSUB " ;;; m <- q_mailbox ;; sp ;;; l <- q_list_mailbox ;; ret (CLsub m l).
(* command.rs:285-327 *)
Definition q_rename : parser command_body :=
  kw "RENAME " ;;; a <- q_mailbox ;; sp ;;; b <- q_mailbox ;; ret (CRename a b).
Definition q_select : parser command_body :=
  kw "SELECT " ;;; m <- q_mailbox ;; ps <- q_select_params ;; ret (CSelect m ps).
(* command.rs:413-448 *)
Definition q_status : parser command_body :=
  kw "STATUS " ;;; m <- q_mailbox ;;
  l <- delimited (tg " (") (sep_list0 sp q_status_att) (tg ")") ;; ret (CStatus m l).
Definition q_subscribe : parser command_body := kw "SUBSCRIBE " ;;; pmap CSubscribe q_mailbox.
Definition q_unsubscribe : parser command_body :=
  kw "UNSUBSCRIBE " ;;; pmap CUnsubscribe q_mailbox.

(* command.rs:150-176 *)
Definition q_command_auth : parser command_body :=
  alt [q_append; q_create; q_delete; q_examine; q_list; q_lsub; q_rename; q_select; q_status;
       q_subscribe; q_unsubscribe; q_idle; q_enable; q_compress; q_getquota; q_getquotaroot;
       q_setquota; gate ext_metadata q_setmetadata; gate ext_metadata q_getmetadata;
       gate ext_namespace q_namespace_command].

(* auth.rs:23-27 *)
Definition q_auth_type : parser auth_mechanism := pmap auth_mechanism_from q_atom.
(* command.rs:473-497 *)
Definition q_login : parser command_body :=
  kw "LOGIN" ;;; sp ;;; u <- q_astring ;; sp ;;; p <- q_astring ;; ret (CLogin u p).
(* command.rs:512-533 *)
Definition q_authenticate : parser command_body :=
  kw "AUTHENTICATE " ;;; a <- q_auth_type ;;
  r <- opt (sp ;;; alt [q_base64; value [] (tg "=")]) ;; ret (CAuthenticate a r).
(* command.rs:454-470 *)
Definition q_command_nonauth : parser command_body :=
  alt [q_login; q_authenticate; gate starttls (value CStartTls (kw "STARTTLS"))].

(* command.rs:565-578 *)
Definition q_copy : parser command_body :=
  kw "COPY" ;;; sp ;;; s <- q_sequence_set ;; sp ;;; m <- q_mailbox ;; ret (CCopy s m false).
(* command.rs:643-682 *)
Definition q_fetch_modifier : parser fetch_modifier :=
  alt [pmap FMChangedSince (kw "CHANGEDSINCE " ;;; q_mod_sequence_value);
       value FMVanished (kw "VANISHED")].
Definition q_fetch_modifiers : parser (list fetch_modifier) :=
  if ext_condstore_qresync
  then pmap dflt (opt (delimited (tg " (") (sep_list1 sp q_fetch_modifier) (char ")"%byte)))
  else ret [].
(* command.rs:587-637 *)
Definition q_macro_or_items : parser macro_or_items :=
  alt [value (MIMacro MacroAll) (kw "ALL"); value (MIMacro MacroFast) (kw "FAST");
       value (MIMacro MacroFull) (kw "FULL"); pmap (fun a => MIItems [a]) q_fetch_att;
       pmap MIItems (delimited (tg "(") (sep_list0 sp q_fetch_att) (tg ")"))].
Definition q_fetch : parser command_body :=
  kw "FETCH" ;;; sp ;;; s <- q_sequence_set ;; sp ;;; it <- q_macro_or_items ;;
  ms <- q_fetch_modifiers ;; ret (CFetch s it false ms).
(* command.rs:724-750 *)
Definition q_store_modifiers : parser (list store_modifier) :=
  if ext_condstore_qresync
  then pmap dflt (opt (delimited (tg " (")
         (sep_list1 sp (pmap SMUnchangedSince (kw "UNCHANGEDSINCE " ;;; q_mod_sequence_valzer)))
         (char ")"%byte)))
  else ret [].
(* command.rs:753-783 *)
Definition q_store_att_flags : parser (store_type * store_response * list flag) :=
  t <- opt (alt [value STAdd (tg "+"); value STRemove (tg "-")]) ;;
  kw "FLAGS" ;;; r <- opt (kw ".SILENT") ;; sp ;;;
  fl <- alt [q_flag_list; sep_list1 sp q_flag] ;;
  ret (match t with Some t => t | None => STReplace end,
       match r with Some _ => SRSilent | None => SRAnswer end, fl).
(* command.rs:689-717 *)
Definition q_store : parser command_body :=
  kw "STORE" ;;; sp ;;; s <- q_sequence_set ;; ms <- q_store_modifiers ;; sp ;;;
  ' (t, r, fl) <- q_store_att_flags ;; ret (CStore s t r fl false ms).
(* command.rs:786-805; the last case is [unreachable!()] *)
Definition q_uid : parser command_body :=
  kw "UID" ;;; sp ;;; expect (alt [q_copy; q_fetch; q_search; q_store; q_move]) set_uid.
(* command.rs:546-562 *)
Definition q_command_select : parser command_body :=
  alt [value CCheck (kw "CHECK"); value CClose (kw "CLOSE"); value CExpunge (kw "EXPUNGE");
       q_uid_expunge; q_copy; q_fetch; q_store; q_uid; q_search; q_sort; q_thread;
       value CUnselect (kw "UNSELECT"); q_move].

(* command.rs:73-104 *)
Definition q_command_body : parser command_body :=
  terminated (alt [q_command_any; q_command_auth; q_command_nonauth; q_command_select]) crlf.
Definition q_command : parser command :=
  t <- terminated q_tag_imap sp ;;
  (fun i => let '(y, c) := pmap (mkCommand t) q_command_body i in (fill_tag t y, S c)).

(* auth.rs:39-44 *)
Definition q_authenticate_data : parser authenticate_data :=
  alt [pmap ADContinue (terminated q_base64 crlf); tg "*" ;;; crlf ;;; ret ADCancel].

End CostCmd.
