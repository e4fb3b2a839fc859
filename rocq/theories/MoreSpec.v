(** What property C60 talks about: a build of the crate with more features than another one, and
    messages that differ at most in names that only the build with more features knows. *)

From Verif Require Import Bytes Features Nom Types ValueSpec Grammar.

Section More.
Context (F F' : features).
(** Every feature of imap-codec/Cargo.toml that changes what is accepted is on in [F'] if it is on in
    [F]. [quirk_id_empty_to_nil] and [quirk_always_normalize_sequence_sets] only change what is
    written, they may differ. *)
Definition more : Prop :=
  (@ext_condstore_qresync F = true -> @ext_condstore_qresync F' = true) /\
  (@ext_id F = true -> @ext_id F' = true) /\
  (@ext_metadata F = true -> @ext_metadata F' = true) /\
  (@ext_namespace F = true -> @ext_namespace F' = true) /\
  (@ext_utf8 F = true -> @ext_utf8 F' = true) /\
  (@ext_login_referrals F = true -> @ext_login_referrals F' = true) /\
  (@ext_mailbox_referrals F = true -> @ext_mailbox_referrals F' = true) /\
  (@starttls F = true -> @starttls F' = true) /\
  (@quirk_crlf_relaxed F = true -> @quirk_crlf_relaxed F' = true) /\
  (@quirk_rectify_numbers F = true -> @quirk_rectify_numbers F' = true) /\
  (@quirk_missing_text F = true -> @quirk_missing_text F' = true) /\
  (@quirk_trailing_space_capability F = true -> @quirk_trailing_space_capability F' = true) /\
  (@quirk_trailing_space_id F = true -> @quirk_trailing_space_id F' = true) /\
  (@quirk_trailing_space_search F = true -> @quirk_trailing_space_search F' = true) /\
  (@quirk_trailing_space_status F = true -> @quirk_trailing_space_status F' = true) /\
  (@quirk_spaces_between_addresses F = true -> @quirk_spaces_between_addresses F' = true) /\
  (@quirk_empty_continue_req F = true -> @quirk_empty_continue_req F' = true) /\
  (@quirk_body_fld_enc_nil_to_empty F = true -> @quirk_body_fld_enc_nil_to_empty F' = true) /\
  (@quirk_excessive_space_quota_resource F = true -> @quirk_excessive_space_quota_resource F' = true).

(** [learn_x a b]: [b] is [a], or names that were kept as text in [a] are known in [b]. *)
Inductive learn_enable : capability_enable -> capability_enable -> Prop :=
| le_same c : learn_enable c c
| le_other t c : word (@enable_table F') t c -> learn_enable (CEOther t) c.
Inductive learn_capability : capability -> capability -> Prop :=
| lc_same c : learn_capability c c
| lc_other t c : word (@capability_table F') t c -> learn_capability (CapOther t) c.
Inductive learn_code : code -> code -> Prop :=
| lk_same c : learn_code c c
| lk_capability l l' : Forall2 learn_capability l l' -> learn_code (CdCapability l) (CdCapability l')
| lk_other t c : @G_known_code F' t c -> learn_code (CdOther t) c.
Inductive learn_opt_code : option code -> option code -> Prop :=
| lo_none : learn_opt_code None None
| lo_some c c' : learn_code c c' -> learn_opt_code (Some c) (Some c').
Inductive learn_command : command -> command -> Prop :=
| lcmd_same c : learn_command c c
| lcmd_enable tag l l' : Forall2 learn_enable l l' -> learn_command (mkCommand tag (CEnable l)) (mkCommand tag (CEnable l')).
Inductive learn_data : data -> data -> Prop :=
| ld_same d : learn_data d d
| ld_capability l l' : Forall2 learn_capability l l' -> learn_data (DCapability l) (DCapability l')
| ld_enabled l l' : Forall2 learn_enable l l' -> learn_data (DEnabled l) (DEnabled l').
Inductive learn_body : status_body -> status_body -> Prop :=
| lb_body k c c' t : learn_opt_code c c' -> learn_body (mkStatusBody k c t) (mkStatusBody k c' t).
Inductive learn_response : response -> response -> Prop :=
| lr_continue c c' t : learn_opt_code c c' -> learn_response (RContinue (CRBasic c t)) (RContinue (CRBasic c' t))
| lr_base64 d : learn_response (RContinue (CRBase64 d)) (RContinue (CRBase64 d))
| lr_data d d' : learn_data d d' -> learn_response (RData d) (RData d')
| lr_untagged b b' : learn_body b b' -> learn_response (RStatus (StUntagged b)) (RStatus (StUntagged b'))
| lr_tagged t b b' : learn_body b b' -> learn_response (RStatus (StTagged t b)) (RStatus (StTagged t b'))
| lr_bye c c' t : learn_opt_code c c' -> learn_response (RStatus (StBye c t)) (RStatus (StBye c' t)).
Inductive learn_greeting : greeting -> greeting -> Prop :=
| lg_greeting k c c' t : learn_opt_code c c' -> learn_greeting (mkGreeting k c t) (mkGreeting k c' t).
End More.

(** Messages without a name that was kept as text: there is nothing to learn. *)
Definition settled_enable (c : capability_enable) : bool := match c with CEOther _ => false | _ => true end.
Definition settled_capability (c : capability) : bool := match c with CapOther _ => false | _ => true end.
Definition settled_code (c : option code) : bool :=
  match c with Some (CdOther _) => false | Some (CdCapability l) => forallb settled_capability l | _ => true end.
Definition settled_command (c : command) : bool :=
  match cmd_body c with CEnable l => forallb settled_enable l | _ => true end.
Definition settled_response (r : response) : bool :=
  match r with
  | RContinue (CRBasic c _) => settled_code c
  | RContinue (CRBase64 _) => true
  | RData (DCapability l) => forallb settled_capability l
  | RData (DEnabled l) => forallb settled_enable l
  | RData _ => true
  | RStatus (StUntagged (mkStatusBody _ c _)) | RStatus (StTagged _ (mkStatusBody _ c _)) | RStatus (StBye c _) => settled_code c
  end.
Definition settled_greeting (g : greeting) : bool := settled_code (gr_code g).
