(** Vocabulary for the serde properties.

    Some enums have a variant for names they do not know, e.g. [AuthMechanism::Other]. The public
    constructors only build it from a name that is none of the known ones, so that every name has
    one representation. [unshadowed] says of a message that it has no such variant around a known
    name. *)

From Verif Require Import Bytes Features Types Conv Valid SerdeTypes.

Section SerdeSpec.
Context {F : features}.

Definition unshadowed_auth (m : auth_mechanism) : bool :=
  match m with AMOther a => is_auth_other (auth_mechanism_from a) | _ => true end.
Definition unshadowed_flag (f : flag) : bool :=
  match f with FExtension a => is_flag_extension (flag_system a) | _ => true end.
Definition unshadowed_flag_fetch (f : flag_fetch) : bool :=
  match f with FFFlag f => unshadowed_flag f | FFRecent => true end.
Definition unshadowed_flag_perm (f : flag_perm) : bool :=
  match f with FPFlag f => unshadowed_flag f | FPAsterisk => true end.
Definition unshadowed_flag_name (f : flag_name_attribute) : bool :=
  match f with FNExtension a => is_name_extension (flag_name_attribute_from a) | _ => true end.
Definition unshadowed_attribute_flag (f : attribute_flag) : bool :=
  match f with AFExtension a => is_attr_extension (attribute_flag_system a) | _ => true end.
Definition unshadowed_enable (c : capability_enable) : bool :=
  match c with CEOther a => is_enable_other (capability_enable_from a) | _ => true end.
Definition unshadowed_resource (r : resource) : bool :=
  match r with ROther a => is_resource_other (resource_from a) | _ => true end.
Definition unshadowed_sort (a : sort_algorithm) : bool :=
  match a with SAOther a => is_sort_other (sort_algorithm_from a) | _ => true end.
Definition unshadowed_threading (a : threading_algorithm) : bool :=
  match a with TAOther a => is_threading_other (threading_algorithm_from a) | _ => true end.

Fixpoint unshadowed_search (k : search_key) : bool :=
  match k with
  | KAnd l => forallb unshadowed_search l
  | KNot k => unshadowed_search k
  | KOr a b => unshadowed_search a && unshadowed_search b
  | KModSequence (Some (f, _)) _ => unshadowed_attribute_flag f
  | _ => true
  end.

Definition unshadowed_command (c : command) : bool :=
  match cmd_body c with
  | CAuthenticate m _ => unshadowed_auth m
  | CAppend _ flags _ _ => forallb unshadowed_flag flags
  | CSearch _ keys _ => forallb unshadowed_search keys
  | CSort _ _ keys _ => forallb unshadowed_search keys
  | CThread a _ keys _ => unshadowed_threading a && forallb unshadowed_search keys
  | CStore _ _ _ flags _ _ => forallb unshadowed_flag flags
  | CEnable caps => forallb unshadowed_enable caps
  | CSetQuota _ quotas => forallb (fun q => unshadowed_resource (qs_resource q)) quotas
  | _ => true
  end.

Definition unshadowed_capability (c : capability) : bool :=
  match c with
  | CapAuth m => unshadowed_auth m
  | CapQuotaRes r => unshadowed_resource r
  | CapSort (Some a) => unshadowed_sort a
  | CapThread a => unshadowed_threading a
  | CapOther a => is_cap_other (capability_from a)
  | _ => true
  end.
Definition unshadowed_code (c : option code) : bool :=
  match c with
  | Some (CdCapability l) => forallb unshadowed_capability l
  | Some (CdPermanentFlags l) => forallb unshadowed_flag_perm l
  | _ => true
  end.
Definition unshadowed_item (i : message_data_item) : bool :=
  match i with MDFlags l => forallb unshadowed_flag_fetch l | _ => true end.
Definition unshadowed_greeting (g : greeting) : bool := unshadowed_code (gr_code g).
Definition unshadowed_response (r : response) : bool :=
  match r with
  | RContinue (CRBasic c _) => unshadowed_code c
  | RContinue (CRBase64 _) => true
  | RStatus (StUntagged b) | RStatus (StTagged _ b) => unshadowed_code (sb_code b)
  | RStatus (StBye c _) => unshadowed_code c
  | RData (DCapability l) => forallb unshadowed_capability l
  | RData (DList l _ _) | RData (DLsub l _ _) => forallb unshadowed_flag_name l
  | RData (DFlags l) => forallb unshadowed_flag l
  | RData (DFetch _ items) => forallb unshadowed_item items
  | RData (DEnabled l) => forallb unshadowed_enable l
  | RData (DQuota _ l) => forallb (fun q => unshadowed_resource (qg_resource q)) l
  | RData _ => true
  end.

(** state.rs:63 [State]: the invariants of its parts *)
Definition v_state (s : state) : bool :=
  match s with
  | StSelected m => v_mailbox LType m
  | StIdleAuthenticated t => tag_ok t
  | StIdleSelected t m => tag_ok t && v_mailbox LType m
  | _ => true
  end.

End SerdeSpec.
