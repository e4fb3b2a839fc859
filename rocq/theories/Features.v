(** Cargo features of imap-codec that change the wire format.

    Models /repo/imap-codec/Cargo.toml [features]. The model takes a value of this
    record everywhere, so a theorem without a feature hypothesis holds for every
    combination of features. [quirk_trailing_space_*] are kept apart as in the crate. *)

Class features := Features {
  ext_condstore_qresync : bool;
  ext_id : bool;
  ext_metadata : bool;
  ext_namespace : bool;
  ext_utf8 : bool;
  ext_login_referrals : bool;
  ext_mailbox_referrals : bool;
  starttls : bool;
  quirk_crlf_relaxed : bool;
  quirk_rectify_numbers : bool;
  quirk_missing_text : bool;
  quirk_id_empty_to_nil : bool;
  quirk_trailing_space_capability : bool;
  quirk_trailing_space_id : bool;
  quirk_trailing_space_search : bool;
  quirk_trailing_space_status : bool;
  quirk_spaces_between_addresses : bool;
  quirk_empty_continue_req : bool;
  quirk_body_fld_enc_nil_to_empty : bool;
  quirk_always_normalize_sequence_sets : bool;
  quirk_excessive_space_quota_resource : bool
}.

(** [default = ["quirk", ...]] in imap-codec/Cargo.toml *)
Definition default_features : features := {|
  ext_condstore_qresync := false;
  ext_id := false;
  ext_metadata := false;
  ext_namespace := false;
  ext_utf8 := false;
  ext_login_referrals := false;
  ext_mailbox_referrals := false;
  starttls := false;
  quirk_crlf_relaxed := false;
  quirk_rectify_numbers := true;
  quirk_missing_text := true;
  quirk_id_empty_to_nil := false;
  quirk_trailing_space_capability := true;
  quirk_trailing_space_id := true;
  quirk_trailing_space_search := true;
  quirk_trailing_space_status := true;
  quirk_spaces_between_addresses := true;
  quirk_empty_continue_req := true;
  quirk_body_fld_enc_nil_to_empty := true;
  quirk_always_normalize_sequence_sets := true;
  quirk_excessive_space_quota_resource := true
|}.

(** [--all-features] *)
Definition all_features : features := {|
  ext_condstore_qresync := true;
  ext_id := true;
  ext_metadata := true;
  ext_namespace := true;
  ext_utf8 := true;
  ext_login_referrals := true;
  ext_mailbox_referrals := true;
  starttls := true;
  quirk_crlf_relaxed := true;
  quirk_rectify_numbers := true;
  quirk_missing_text := true;
  quirk_id_empty_to_nil := true;
  quirk_trailing_space_capability := true;
  quirk_trailing_space_id := true;
  quirk_trailing_space_search := true;
  quirk_trailing_space_status := true;
  quirk_spaces_between_addresses := true;
  quirk_empty_continue_req := true;
  quirk_body_fld_enc_nil_to_empty := true;
  quirk_always_normalize_sequence_sets := true;
  quirk_excessive_space_quota_resource := true
|}.
