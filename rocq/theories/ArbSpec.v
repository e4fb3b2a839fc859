(** C54: which messages the generators of arbitrary messages can make.

    [r_command c] and so on say what the generators leave out of the values that satisfy the
    invariants of their types (Valid.v, level [LType]); [may_make g a] says that the generator
    [g] can make [a] from every long enough input, if its random choices are the right ones. *)

From Verif Require Import Bytes Features Nom Types Utf8 Conv Valid Arb.
Open Scope nat_scope.

Definition may_make {A} (g : N -> gen A) (a : A) : Prop :=
  exists enough, forall size, (enough <= size)%N -> g size (GVal a).

(** A UTF-8 string that needs no UTF-8 is made as [Quoted]. *)
Definition r_istring (s : istring) : bool :=
  match s with IQuotedUtf8 s => negb (quoted_ok s) | _ => true end.
Definition r_nstring : nstring -> bool := vopt r_istring.
Definition r_astring (a : astring) : bool := match a with AString s => r_istring s | _ => true end.
Definition r_nstring8 (n : nstring8) : bool :=
  match n with N8NString n => r_nstring n | N8Literal8 _ => true end.
(** A mailbox is made from UTF-8 text, in the simplest form that can hold it. *)
Definition r_mailbox (m : mailbox) : bool :=
  match m with
  | MInbox => true
  | MOther (AAtom _) => true
  | MOther (AString (IQuoted s)) => negb (atom_ext_ok s)
  | MOther (AString (IQuotedUtf8 _)) => false
  | MOther (AString (ILiteral l)) =>
    match lit_mode_of l with Sync => true | NonSync => false end
    && utf8_ok (lit_data l) && negb (quoted_ok (lit_data l))
  end.
Definition r_list_mailbox (m : list_mailbox) : bool :=
  match m with LMToken _ => true | LMString s => r_istring s end.
(** Time zones are not west of Greenwich. *)
Definition r_date_time (t : date_time) : bool := Z.leb 0 (dt_offset t).
(** Names that the conversion from text does not know. *)
Definition r_auth_mechanism (m : auth_mechanism) : bool :=
  match m with AMScramSha3_512 | AMScramSha3_512Plus => false | _ => true end.
Definition r_capability (c : capability) : bool :=
  match c with
  | CapAuth m => r_auth_mechanism m
  | CapQuotaRes (ROther a) => beqs (lowers a) a
  | CapNamespace => false
  | _ => true
  end.

(** Search keys are nested at most [depth] deep, without [MODSEQ] at the innermost level. *)
Fixpoint r_search_key (depth : nat) (k : search_key) : bool :=
  match k, depth with
  | KAnd l, S d => forallb (r_search_key d) l
  | KNot k, S d => r_search_key d k
  | KOr a b, S d => r_search_key d a && r_search_key d b
  | KModSequence _ _, S _ => true
  | (KAnd _ | KNot _ | KOr _ _ | KModSequence _ _), O => false
  | (KBcc s | KBody s | KCc s | KFrom s | KSubject s | KText s | KTo s), _ => r_astring s
  | KHeader k v, _ => r_astring k && r_astring v
  | _, _ => true
  end.

(** Body extensions are never lists. *)
Definition r_body_extension (b : body_extension) : bool :=
  match b with BENString n => r_nstring n | BENumber _ => true | BEList _ => false end.
Definition r_address (a : address) : bool :=
  r_nstring (ad_name a) && r_nstring (ad_adl a) && r_nstring (ad_mailbox a) && r_nstring (ad_host a).
Definition r_envelope (e : envelope) : bool :=
  r_nstring (env_date e) && r_nstring (env_subject e)
  && forallb r_address (env_from e) && forallb r_address (env_sender e)
  && forallb r_address (env_reply_to e) && forallb r_address (env_to e)
  && forallb r_address (env_cc e) && forallb r_address (env_bcc e)
  && r_nstring (env_in_reply_to e) && r_nstring (env_message_id e).
Definition r_params : list (istring * istring) -> bool := forallb (vpair r_istring r_istring).
Definition r_location (l : location) : bool :=
  r_nstring (loc_location l) && forallb r_body_extension (loc_extensions l).
Definition r_language (l : language) : bool :=
  forallb r_istring (lang_language l) && vopt r_location (lang_tail l).
Definition r_disposition (d : disposition) : bool :=
  vopt (vpair r_istring r_params) (disp_disposition d) && vopt r_language (disp_tail d).
Definition r_single_ext (s : single_ext) : bool :=
  r_nstring (se_md5 s) && vopt r_disposition (se_tail s).
Definition r_multi_ext (m : multi_ext) : bool :=
  r_params (me_params m) && vopt r_disposition (me_tail m).
Definition r_basic (b : basic_fields) : bool :=
  r_params (bf_params b) && r_nstring (bf_id b) && r_nstring (bf_description b)
  && r_istring (bf_encoding b).
(** Messages and multiparts are nested at most [depth] deep. *)
Fixpoint r_body (depth : nat) (b : body_structure) : bool :=
  match b with
  | BSSingle basic specific ext =>
    r_basic basic
    && match specific with
       | SFBasic t s => r_istring t && r_istring s
       | SFMessage env b' _ =>
         match depth with S d => r_envelope env && r_body d b' | O => false end
       | SFText s _ => r_istring s
       end
    && vopt r_single_ext ext
  | BSMulti l s ext =>
    match depth with S d => forallb (r_body d) l | O => false end
    && r_istring s && vopt r_multi_ext ext
  end.
Definition r_section (s : section) : bool :=
  match s with
  | SecHeaderFields _ l | SecHeaderFieldsNot _ l => forallb r_astring l
  | _ => true
  end.
Definition r_item_name (i : item_name) : bool :=
  match i with INBodyExt s _ _ => vopt r_section s | _ => true end.
Definition r_macro_or_items (m : macro_or_items) : bool :=
  match m with MIMacro _ => true | MIItems l => forallb r_item_name l end.
(** How deep search keys, body structures and threads are nested, without and with the feature
    [arbitrary_simplified]. *)
Definition key_depth (simplified : bool) : nat := if simplified then 0 else 7.
Definition body_depth (simplified : bool) : nat := if simplified then 0 else 3.
Definition thread_limit (simplified : bool) : nat := if simplified then 0 else 7.

Section Restricted.
Variable simplified : bool.
Definition r_message_data_item (m : message_data_item) : bool :=
  match m with
  | MDBody b | MDBodyStructure b => r_body (body_depth simplified) b
  | MDBodyExt s _ d => vopt r_section s && r_nstring d
  | MDEnvelope e => r_envelope e
  | MDInternalDate d => r_date_time d
  | MDRfc822 n | MDRfc822Header n | MDRfc822Text n => r_nstring n
  | MDBinary _ v => r_nstring8 v
  | _ => true
  end.
Definition r_entry_value (e : entry_value) : bool :=
  r_astring (ev_entry e) && r_nstring8 (ev_value e).
Definition r_metadata_response (r : metadata_response) : bool :=
  match r with
  | MRWithValues l => forallb r_entry_value l
  | MRWithoutValues l => forallb r_astring l
  end.
Definition r_namespace_ext (e : namespace_ext) : bool :=
  r_istring (ne_key e) && forallb r_istring (ne_values e).
Definition r_namespace (n : namespace) : bool :=
  r_istring (ns_prefix n) && forallb r_namespace_ext (ns_extensions n).
Definition r_id_params (p : option (list (istring * nstring))) : bool :=
  vopt (forallb (vpair r_istring r_nstring)) p.
(** Where a thread has answers, it has two, and they are the same. *)
Inductive r_thread : nat -> thread -> Prop :=
| R_leaf depth p : r_thread depth (TMembers p None)
| R_members depth p t : r_thread depth t -> r_thread (S depth) (TMembers p (Some [t; t]))
| R_nested depth t : r_thread depth t -> r_thread (S depth) (TNested [t; t]).

Definition r_command_body (c : command_body) : bool :=
  match c with
  | CAuthenticate m _ => r_auth_mechanism m
  | CLogin u p => r_astring u && r_astring p
  | CSelect m _ | CExamine m _ | CCreate m | CDelete m | CSubscribe m | CUnsubscribe m
  | CGetQuotaRoot m | CStatus m _ | CCopy _ m _ | CMove _ m _ => r_mailbox m
  | CRename a b => r_mailbox a && r_mailbox b
  | CList r p | CLsub r p => r_mailbox r && r_list_mailbox p
  | CAppend m _ d _ => r_mailbox m && vopt r_date_time d
  | CSearch _ l _ | CSort _ _ l _ | CThread _ _ l _ => forallb (r_search_key (key_depth simplified)) l
  | CFetch _ m _ _ => r_macro_or_items m
  | CGetQuota r | CSetQuota r _ => r_astring r
  | CId p => r_id_params p
  | CSetMetadata m l => r_mailbox m && forallb r_entry_value l
  | CGetMetadata _ m l => r_mailbox m && forallb r_astring l
  | _ => true
  end.
Definition r_command (c : command) : bool := r_command_body (cmd_body c).

(** There is one unknown code. *)
Definition r_code (c : code) : bool :=
  match c with
  | CdCapability l => forallb r_capability l
  | CdOther b => beqs b (bs "IMAP-CODEC-CODE-OTHER>")
  | _ => true
  end.
Definition r_plain (t : bytes) : bool := negb (starts_with (bs "[") t).
Definition r_code_text (c : option code) (t : bytes) : bool :=
  match c with Some c => r_code c | None => r_plain t end.
Definition r_greeting (g : greeting) : bool := vopt r_code (gr_code g) && r_plain (gr_text g).
Definition r_status (s : status) : bool :=
  match s with
  | StUntagged b | StTagged _ b => r_code_text (sb_code b) (sb_text b)
  | StBye c t => r_code_text c t
  end.
Definition r_data (d : data) : Prop :=
  match d with
  | DThread l => Forall (r_thread (thread_limit simplified)) l
  | DCapability l => forallb r_capability l = true
  | DList _ _ m | DLsub _ _ m | DStatus m _ => r_mailbox m = true
  | DFetch _ l => forallb r_message_data_item l = true
  | DQuota r _ => r_astring r = true
  | DQuotaRoot m l => r_mailbox m && forallb r_astring l = true
  | DId p => r_id_params p = true
  | DMetadata m i => r_mailbox m && r_metadata_response i = true
  | DNamespace a b c => forallb r_namespace a && forallb r_namespace b && forallb r_namespace c = true
  | _ => True
  end.
Definition r_response (r : response) : Prop :=
  match r with
  | RContinue (CRBasic c _) => vopt r_code c = true
  | RContinue (CRBase64 _) => True
  | RData d => r_data d
  | RStatus s => r_status s = true
  end.
End Restricted.
