(** Commands: imap-codec/src/command.rs, auth.rs and the command parts of
    imap-codec/src/extensions. *)

From Verif Require Import Bytes Dec Features Nom Types Conv ParseCore ParseBody.

Section ParseCmd.
Context {F : features}.

(** ** extensions *)

(* extensions/id.rs:31-75 *)
Definition p_id_param : parser (istring * nstring) :=
  k <- p_string ;; sp ;;; v <- p_nstring ;; ret (k, v).
Definition p_id_params_list : parser (option (list (istring * nstring))) :=
  alt [pmap Some
         (delimited (tg "(")
            (if quirk_trailing_space_id
             then terminated (sep_list0 sp p_id_param) (opt sp)
             else sep_list0 sp p_id_param)
            (tg ")"));
       value None p_nil].
Definition p_id : parser (option (list (istring * nstring))) := kw "ID " ;;; p_id_params_list.

(* extensions/idle.rs:35-37, 53-55 *)
Definition p_idle : parser command_body := value CIdle (kw "IDLE").
Definition p_idle_done : parser unit := kw "DONE" ;;; crlf ;;; ret tt.

(* extensions/enable.rs:37-55 *)
Definition p_capability_enable : parser capability_enable := pmap capability_enable_from p_atom.
Definition p_enable : parser command_body :=
  kw "ENABLE" ;;; pmap CEnable (vec1 (many1 (sp ;;; p_capability_enable))).

(* extensions/compress.rs:24-33 *)
Definition p_compress : parser command_body :=
  kw "COMPRESS " ;;; pmap CCompress (value Deflate (kw "DEFLATE")).

(* extensions/quota.rs:32-57, 96-98, 144-165 *)
Definition p_getquota : parser command_body := kw "GETQUOTA " ;;; pmap CGetQuota p_astring.
Definition p_getquotaroot : parser command_body :=
  kw "GETQUOTAROOT " ;;; pmap CGetQuotaRoot p_mailbox.
Definition p_resource_name : parser resource := pmap resource_from p_atom.
Definition p_setquota_resource : parser quota_set :=
  r <- p_resource_name ;; sp ;;; l <- p_number64 ;; ret (mkQuotaSet r l).
Definition p_setquota : parser command_body :=
  kw "SETQUOTA " ;;; r <- p_astring ;;
  qs <- delimited (tg " (") (sep_list0 sp p_setquota_resource) (tg ")") ;;
  ret (CSetQuota r qs).

(* extensions/metadata.rs:37-104; [Entry::try_from] never fails *)
Definition p_entry_value : parser entry_value :=
  e <- p_astring ;; sp ;;; v <- p_nstring8 ;; ret (mkEntryValue e v).
Definition p_entry_values : parser (list entry_value) :=
  vec1 (delimited (tg "(") (sep_list1 sp p_entry_value) (tg ")")).
Definition p_setmetadata : parser command_body :=
  kw "SETMETADATA" ;;; sp ;;; m <- p_mailbox ;; sp ;;; es <- p_entry_values ;;
  ret (CSetMetadata m es).
(* extensions/metadata.rs:111-183 *)
Definition p_getmetadata_option : parser get_metadata_option :=
  alt [pmap GMMaxSize (kw "MAXSIZE " ;;; p_number);
       pmap GMDepth
         (kw "DEPTH " ;;;
          alt [value DepthNull (tg "0"); value DepthOne (tg "1");
               value DepthInfinity (kw "infinity")])].
Definition p_getmetadata_options : parser (list get_metadata_option) :=
  vec1 (delimited (tg "(") (sep_list1 sp p_getmetadata_option) (tg ")")).
Definition p_entries : parser (list astring) :=
  alt [pmap (fun e => [e]) p_astring;
       vec1 (delimited (tg "(") (sep_list1 sp p_astring) (tg ")"))].
Definition p_getmetadata : parser command_body :=
  kw "GETMETADATA" ;;; o <- opt (sp ;;; p_getmetadata_options) ;;
  sp ;;; m <- p_mailbox ;; sp ;;; es <- p_entries ;;
  ret (CGetMetadata (dflt o) m es).

(* extensions/namespace.rs:30-32 *)
Definition p_namespace_command : parser command_body := value CNamespace (kw "NAMESPACE").

(* extensions/uidplus.rs:28-33 *)
Definition p_uid_expunge : parser command_body :=
  kw "UID EXPUNGE " ;;; pmap CExpungeUid p_sequence_set.

(* extensions/move.rs:12-25 *)
Definition p_move : parser command_body :=
  kw "MOVE" ;;; sp ;;; s <- p_sequence_set ;; sp ;;; m <- p_mailbox ;; ret (CMove s m false).

(* extensions/sort.rs:26-88 *)
Definition is_some {A} (o : option A) : bool := match o with Some _ => true | None => false end.
Definition p_sort_key : parser sort_key :=
  alt [value SKArrival (kw "ARRIVAL"); value SKCc (kw "CC"); value SKDate (kw "DATE");
       value SKFrom (kw "FROM"); value SKSize (kw "SIZE"); value SKSubject (kw "SUBJECT");
       value SKTo (kw "TO"); value SKDisplayFrom (kw "DISPLAYFROM");
       value SKDisplayTo (kw "DISPLAYTO")].
Definition p_sort_criterion : parser sort_criterion :=
  r <- opt (kw "REVERSE ") ;; k <- p_sort_key ;; ret (mkSort (is_some r) k).
Definition p_sort_criteria : parser (list sort_criterion) :=
  delimited (tg "(") (vec1 (sep_list1 sp p_sort_criterion)) (tg ")").
Definition p_sort : parser command_body :=
  u <- opt (kw "UID ") ;; kw "SORT " ;;; sc <- p_sort_criteria ;; sp ;;;
  ' (cs, ks) <- p_search_criteria ;; ret (CSort sc cs ks (is_some u)).

(* extensions/thread.rs:50-79 *)
Definition p_thread : parser command_body :=
  u <- opt (kw "UID ") ;; kw "THREAD " ;;;
  a <- pmap threading_algorithm_from p_atom ;; sp ;;;
  ' (cs, ks) <- p_search_criteria ;; ret (CThread a cs ks (is_some u)).

(** ** command.rs *)

(* command.rs:114-125 *)
Definition p_command_any : parser command_body :=
  alt [value CCapability (kw "CAPABILITY"); value CLogout (kw "LOGOUT");
       value CNoop (kw "NOOP"); gate ext_id (pmap CId p_id)].

(* command.rs:379-409 *)
Definition p_select_param : parser select_parameter :=
  alt [value SPCondStore (kw "CONDSTORE");
       (kw "QRESYNC (" ;;;
        v <- p_nz_number ;; sp ;;; m <- p_mod_sequence_value ;;
        k <- opt (sp ;;; p_sequence_set) ;;
        d <- opt (sp ;;; delimited (char "("%byte)
                           (a <- p_sequence_set ;; sp ;;; b <- p_sequence_set ;; ret (a, b))
                           (char ")"%byte)) ;;
        char ")"%byte ;;;
        ret (SPQResync v m k d))].
(* command.rs:330-332 and the [opt] of select and examine; without the feature the field
   does not exist ([[]] in the model) *)
Definition p_select_params : parser (list select_parameter) :=
  if ext_condstore_qresync
  then pmap dflt (opt (delimited (tg " (") (sep_list1 sp p_select_param) (tg ")")))
  else ret [].

(* command.rs:179-206 *)
Definition p_append : parser command_body :=
  kw "APPEND " ;;; m <- p_mailbox ;; fl <- opt (sp ;;; p_flag_list) ;;
  d <- opt (sp ;;; p_date_time) ;; sp ;;;
  msg <- alt [pmap LLiteral p_literal; pmap LLiteral8 p_literal8] ;;
  ret (CAppend m (dflt fl) d msg).
(* command.rs:208-250 *)
Definition p_create : parser command_body := kw "CREATE " ;;; pmap CCreate p_mailbox.
Definition p_delete : parser command_body := kw "DELETE " ;;; pmap CDelete p_mailbox.
Definition p_examine : parser command_body :=
  kw "EXAMINE " ;;; m <- p_mailbox ;; ps <- p_select_params ;; ret (CExamine m ps).
(* command.rs:253-280 *)
Definition p_list : parser command_body :=
  kw "LIST " ;;; m <- p_mailbox ;; sp ;;; l <- p_list_mailbox ;; ret (CList m l).
Definition p_lsub : parser command_body :=
  kw "LSUB " ;;; m <- p_mailbox ;; sp ;;; l <- p_list_mailbox ;; ret (CLsub m l).
(* command.rs:285-327 *)
Definition p_rename : parser command_body :=
  kw "RENAME " ;;; a <- p_mailbox ;; sp ;;; b <- p_mailbox ;; ret (CRename a b).
Definition p_select : parser command_body :=
  kw "SELECT " ;;; m <- p_mailbox ;; ps <- p_select_params ;; ret (CSelect m ps).
(* command.rs:413-448 *)
Definition p_status : parser command_body :=
  kw "STATUS " ;;; m <- p_mailbox ;;
  l <- delimited (tg " (") (sep_list0 sp p_status_att) (tg ")") ;; ret (CStatus m l).
Definition p_subscribe : parser command_body := kw "SUBSCRIBE " ;;; pmap CSubscribe p_mailbox.
Definition p_unsubscribe : parser command_body :=
  kw "UNSUBSCRIBE " ;;; pmap CUnsubscribe p_mailbox.

(* command.rs:150-176 *)
Definition p_command_auth : parser command_body :=
  alt [p_append; p_create; p_delete; p_examine; p_list; p_lsub; p_rename; p_select; p_status;
       p_subscribe; p_unsubscribe; p_idle; p_enable; p_compress; p_getquota; p_getquotaroot;
       p_setquota; gate ext_metadata p_setmetadata; gate ext_metadata p_getmetadata;
       gate ext_namespace p_namespace_command].

(* auth.rs:23-27 *)
Definition p_auth_type : parser auth_mechanism := pmap auth_mechanism_from p_atom.
(* command.rs:473-497 *)
Definition p_login : parser command_body :=
  kw "LOGIN" ;;; sp ;;; u <- p_astring ;; sp ;;; p <- p_astring ;; ret (CLogin u p).
(* command.rs:512-533 *)
Definition p_authenticate : parser command_body :=
  kw "AUTHENTICATE " ;;; a <- p_auth_type ;;
  r <- opt (sp ;;; alt [p_base64; value [] (tg "=")]) ;; ret (CAuthenticate a r).
(* command.rs:454-470 *)
Definition p_command_nonauth : parser command_body :=
  alt [p_login; p_authenticate; gate starttls (value CStartTls (kw "STARTTLS"))].

(* command.rs:565-578 *)
Definition p_copy : parser command_body :=
  kw "COPY" ;;; sp ;;; s <- p_sequence_set ;; sp ;;; m <- p_mailbox ;; ret (CCopy s m false).
(* command.rs:643-682 *)
Definition p_fetch_modifier : parser fetch_modifier :=
  alt [pmap FMChangedSince (kw "CHANGEDSINCE " ;;; p_mod_sequence_value);
       value FMVanished (kw "VANISHED")].
Definition p_fetch_modifiers : parser (list fetch_modifier) :=
  if ext_condstore_qresync
  then pmap dflt (opt (delimited (tg " (") (sep_list1 sp p_fetch_modifier) (char ")"%byte)))
  else ret [].
(* command.rs:587-637 *)
Definition p_macro_or_items : parser macro_or_items :=
  alt [value (MIMacro MacroAll) (kw "ALL"); value (MIMacro MacroFast) (kw "FAST");
       value (MIMacro MacroFull) (kw "FULL"); pmap (fun a => MIItems [a]) p_fetch_att;
       pmap MIItems (delimited (tg "(") (sep_list0 sp p_fetch_att) (tg ")"))].
Definition p_fetch : parser command_body :=
  kw "FETCH" ;;; sp ;;; s <- p_sequence_set ;; sp ;;; it <- p_macro_or_items ;;
  ms <- p_fetch_modifiers ;; ret (CFetch s it false ms).
(* command.rs:724-750 *)
Definition p_store_modifiers : parser (list store_modifier) :=
  if ext_condstore_qresync
  then pmap dflt (opt (delimited (tg " (")
         (sep_list1 sp (pmap SMUnchangedSince (kw "UNCHANGEDSINCE " ;;; p_mod_sequence_valzer)))
         (char ")"%byte)))
  else ret [].
(* command.rs:753-783 *)
Definition p_store_att_flags : parser (store_type * store_response * list flag) :=
  t <- opt (alt [value STAdd (tg "+"); value STRemove (tg "-")]) ;;
  kw "FLAGS" ;;; r <- opt (kw ".SILENT") ;; sp ;;;
  fl <- alt [p_flag_list; sep_list1 sp p_flag] ;;
  ret (match t with Some t => t | None => STReplace end,
       match r with Some _ => SRSilent | None => SRAnswer end, fl).
(* command.rs:689-717 *)
Definition p_store : parser command_body :=
  kw "STORE" ;;; sp ;;; s <- p_sequence_set ;; ms <- p_store_modifiers ;; sp ;;;
  ' (t, r, fl) <- p_store_att_flags ;; ret (CStore s t r fl false ms).
(* command.rs:786-805; the last case is [unreachable!()] *)
Definition set_uid (c : command_body) : option command_body :=
  match c with
  | CCopy s m _ => Some (CCopy s m true)
  | CFetch s i _ ms => Some (CFetch s i true ms)
  | CSearch cs k _ => Some (CSearch cs k true)
  | CStore s t r fl _ ms => Some (CStore s t r fl true ms)
  | CMove s m _ => Some (CMove s m true)
  | _ => None
  end.
Definition p_uid : parser command_body :=
  kw "UID" ;;; sp ;;; expect (alt [p_copy; p_fetch; p_search; p_store; p_move]) set_uid.
(* command.rs:546-562 *)
Definition p_command_select : parser command_body :=
  alt [value CCheck (kw "CHECK"); value CClose (kw "CLOSE"); value CExpunge (kw "EXPUNGE");
       p_uid_expunge; p_copy; p_fetch; p_store; p_uid; p_search; p_sort; p_thread;
       value CUnselect (kw "UNSELECT"); p_move].

(* command.rs:73-104 *)
Definition p_command_body : parser command_body :=
  terminated (alt [p_command_any; p_command_auth; p_command_nonauth; p_command_select]) crlf.
Definition fill_tag {A} (t : bytes) (r : res A) : res A :=
  match r with
  | RFail (FLit _ n m) => RFail (FLit (Some t) n m)
  | r => r
  end.
Definition p_command : parser command :=
  t <- terminated p_tag_imap sp ;;
  (fun i => fill_tag t (pmap (mkCommand t) p_command_body i)).

(* auth.rs:39-44 *)
Definition p_authenticate_data : parser authenticate_data :=
  alt [pmap ADContinue (terminated p_base64 crlf); tg "*" ;;; crlf ;;; ret ADCancel].

End ParseCmd.
