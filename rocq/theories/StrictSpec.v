(** What property C62 talks about: two builds of the crate with the same extensions that may differ in
    every quirk. *)

From Verif Require Import Bytes Features.

Section Strict.
Context (F F' : features).
(** The features of imap-codec/Cargo.toml that add messages are the same in both builds. *)
Definition same_extensions : Prop :=
  @ext_condstore_qresync F = @ext_condstore_qresync F' /\
  @ext_id F = @ext_id F' /\
  @ext_metadata F = @ext_metadata F' /\
  @ext_namespace F = @ext_namespace F' /\
  @ext_utf8 F = @ext_utf8 F' /\
  @ext_login_referrals F = @ext_login_referrals F' /\
  @ext_mailbox_referrals F = @ext_mailbox_referrals F' /\
  @starttls F = @starttls F'.
(** As for a space after the last capability, [F'] tolerates no more than [F]: this is the one quirk
    that turns a code that is unknown without it into a known one. *)
Definition no_new_trailing_space : Prop :=
  @quirk_trailing_space_capability F' = true -> @quirk_trailing_space_capability F = true.
End Strict.

(** The same build without any quirk: it accepts and writes what the standards say. *)
Definition strict (F : features) : features := {|
  ext_condstore_qresync := @ext_condstore_qresync F;
  ext_id := @ext_id F;
  ext_metadata := @ext_metadata F;
  ext_namespace := @ext_namespace F;
  ext_utf8 := @ext_utf8 F;
  ext_login_referrals := @ext_login_referrals F;
  ext_mailbox_referrals := @ext_mailbox_referrals F;
  starttls := @starttls F;
  quirk_crlf_relaxed := false;
  quirk_rectify_numbers := false;
  quirk_missing_text := false;
  quirk_id_empty_to_nil := false;
  quirk_trailing_space_capability := false;
  quirk_trailing_space_id := false;
  quirk_trailing_space_search := false;
  quirk_trailing_space_status := false;
  quirk_spaces_between_addresses := false;
  quirk_empty_continue_req := false;
  quirk_body_fld_enc_nil_to_empty := false;
  quirk_always_normalize_sequence_sets := false;
  quirk_excessive_space_quota_resource := false
|}.
