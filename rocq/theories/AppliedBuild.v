(** The hypotheses of the theorems about values and constructors are met: each theorem applied to concrete
    arguments. (Further examples, chosen for what they show, stand beside the theorems themselves.) *)

From Verif Require Import Bytes BytesFacts Dec Features Nom Types Utf8 Conv SeqSet Base64 Date EncodeCtx Encode EncodeApi Decode DecodeSpec
  Valid RoundTripSpec Ctors ValueSpec ValueFacts ValueProps SeqSpec SeqProps BuildProps.

Notation D := default_features.
(** ** Arguments *)
Lemma tag_arg : some_of TAG_CHAR (bs "a1"). Proof. apply tag_ok_spec. reflexivity. Qed.
Definition str_arg : bytes := bs "b " ++ [xc3; xa9; bCR; bLF].
Lemma str_arg_ok : many_of CHAR8 str_arg. Proof. repeat constructor; intros K; discriminate K. Qed.
Lemma str_arg_fits : (lenN str_arg <= u32_max)%N. Proof. intros K; discriminate K. Qed.
Definition nul_arg : bytes := bs "ab" ++ [x00] ++ bs "c".
Lemma nul_arg_wrong : first_wrong CHAR8 nul_arg x00 2.
Proof.
  exists (bs "ab"), (bs "c"). repeat split; [repeat constructor; intros K; discriminate K | intros K; now apply K].
Qed.
Lemma nul_arg_no_text : first_wrong TEXT_CHAR (bs "ok" ++ [bLF]) bLF 2.
Proof.
  exists (bs "ok"), []. split; [reflexivity |]. split; [reflexivity |]. split.
  - exact (proj2 (proj1 (text_ok_spec (bs "ok")) eq_refl)).
  - intros (_ & _ & K). now apply K.
Qed.
Lemma text_arg : some_of TEXT_CHAR (bs "all done"). Proof. apply text_ok_spec. reflexivity. Qed.
Lemma inbox_arg : same_letters (bs "iNbOx") (bs "inbox"). Proof. now apply same_letters_spec. Qed.
Definition set_arg : sequence_set := [SRange (SValue 5) SAsterisk; SSingle (SValue 3)].
Lemma set_arg_text : sequence_set_text (bs "5:*,3") set_arg.
Proof. apply C30_from_str; [cbn; intros K; repeat (destruct K as [K | K]; [discriminate K |]); destruct K | reflexivity]. Qed.
Lemma set_arg_wrong : wrong_set (bs "5:*,").
Proof.
  split; [cbn; intros K; repeat (destruct K as [K | K]; [discriminate K |]); destruct K |].
  intros x H. apply C30_from_str_accepts in H. discriminate H.
Qed.
Definition time_arg : date_time := mkDateTime (mkDate 2024 2 29) 23 59 59 (-12600).
Lemma time_arg_real : real_date_time time_arg. Proof. now apply v_date_time_spec. Qed.
Lemma date_arg_real : real_date (mkDate 2024 2 29). Proof. now apply v_date_spec. Qed.
Lemma base64_arg : base64 (bs "foob") (bs "Zm9vYg=="). Proof. now apply base64_spec. Qed.
Lemma digits_arg : digits (bs "0017") 17. Proof. now apply digits_spec. Qed.

(** ** C25 to C27: strings and mailboxes *)
Example C25_unescape_applies := C25_unescape _ _ (proj2 C25_example).
Example C25_unique_applies := C25_unique _ _ _ (proj2 C25_example) (proj2 C25_example).
Example C26_istring_applies := proj1 (C26_istring str_arg) str_arg_ok.
Example C26_istring_wrong_applies := proj2 (C26_istring nul_arg) _ _ nul_arg_wrong.
Example C26_nstring_applies := proj1 (C26_nstring str_arg) str_arg_ok.
Example C26_astring_applies := proj1 (C26_astring str_arg) str_arg_ok.
Example C26_astring_wrong_applies := proj2 (C26_astring nul_arg) _ _ nul_arg_wrong.
Example C26_list_mailbox_applies := proj1 (C26_list_mailbox str_arg) str_arg_ok.
Example C26_charset_applies := proj1 (C26_charset (bs "all done")) (proj2 text_arg).
Example C27_convert_applies := C27_convert str_arg str_arg_ok.
Example C27_convert_error_applies := C27_convert_error _ _ _ nul_arg_wrong.
Example C27_unique_applies := C27_unique (bs "iNbOx") (bs "box") _ _ eq_refl eq_refl inbox_arg.
Example C27_decode_applies := @C27_decode D (bs "a1") (bs "iNbOx") (bs "rest") tag_arg inbox_arg.
Example C27_other_applies := proj1 (C27_other (bs "iNbOx")) inbox_arg.
Example C27_other_wrong_applies := proj2 (proj2 (C27_other nul_arg)) _ _ nul_arg_wrong.

(** ** C31, C33 to C35: continuation requests, base64, dates, numbers *)
Example C31_basic_applies := @C31_basic D None (bs "go on") _ eq_refl I.
Example C33_canonical_applies := C33_canonical _ _ _ base64_arg base64_arg.
Example C33_function_applies := C33_function _ _ _ base64_arg base64_arg.
Example C33_decode_applies := proj2 (C33_decode _ _) base64_arg.
Example C33_read_applies := @C33_read D _ _ (bs "rest") base64_arg.
Example C34_date_survives_applies := @C34_date_survives D _ _ tag_arg date_arg_real.
Example C34_time_survives_applies := @C34_time_survives D _ _ tag_arg time_arg_real.
Example C34_internal_date_survives_applies := @C34_internal_date_survives D 7 _ ltac:(now split) time_arg_real.
Example C35_exists_applies := @C35_exists D (bs "0017") _ (bs "rest") ltac:(discriminate) digits_arg.
Example C35_expunge_applies := @C35_expunge D (bs "0017") _ (bs "rest") ltac:(discriminate) digits_arg.
Example C35_literal_length_applies := @C35_literal_length D _ (bs "0017") _ NonSync tag_arg ltac:(discriminate) digits_arg.

(** ** C43: commands *)
Example C43_tag_applies := proj1 (C43_tag _ CNoop) tag_arg.
Example C43_sent_applies := @C43_sent D _ (CSearch None [KSequenceSet set_arg] true) tag_arg eq_refl.
Example C43_login_applies := @C43_login D _ _ _ tag_arg str_arg_ok str_arg_ok str_arg_fits str_arg_fits.
Example C43_login_error_applies := proj1 (C43_login_error _ str_arg _ _) nul_arg_wrong.
Example C43_login_error_second_applies := proj2 (C43_login_error _ _ _ _) str_arg_ok nul_arg_wrong.
Example C43_mailbox_applies := @C43_mailbox D _ _ tag_arg str_arg_ok str_arg_fits.
Example C43_rename_applies := @C43_rename D _ _ _ tag_arg str_arg_ok str_arg_ok str_arg_fits str_arg_fits.
Example C43_list_applies := @C43_list D _ _ _ tag_arg str_arg_ok str_arg_ok str_arg_fits str_arg_fits.
Example C43_append_applies := @C43_append D _ _ [FSeen] (Some time_arg) _ tag_arg str_arg_ok str_arg_fits str_arg_ok str_arg_fits ltac:(repeat constructor) time_arg_real.
Example C43_get_quota_applies := @C43_get_quota D _ _ tag_arg str_arg_ok str_arg_fits.
Example C43_mailbox_error_applies := C43_mailbox_error _ _ _ nul_arg_wrong.
Example C43_second_error_applies := C43_second_error _ _ _ _ str_arg_ok nul_arg_wrong.
Example C43_quota_error_applies := C43_quota_error _ _ _ nul_arg_wrong.
Example C43_set_error_applies := C43_set_error _ set_arg_wrong.
Example C43_copy_error_applies := C43_copy_error _ _ _ _ _ true set_arg_text nul_arg_wrong.
Example C43_status_applies := @C43_status D _ _ [SNMessages] tag_arg str_arg_ok str_arg_fits ltac:(repeat constructor).
Example C43_fetch_applies := @C43_fetch D _ _ _ (MIItems [INFlags]) true tag_arg set_arg_text eq_refl.
Example C43_store_applies := @C43_store D _ _ _ STAdd SRSilent [FSeen] true tag_arg set_arg_text ltac:(repeat constructor).
Example C43_copy_applies := @C43_copy D _ _ _ _ true tag_arg set_arg_text str_arg_ok str_arg_fits.
Example C43_set_quota_applies := @C43_set_quota D _ _ [] tag_arg str_arg_ok str_arg_fits (Forall_nil _).
Example C43_enable_applies := @C43_enable D _ [CEOther (bs "x-foo")] tag_arg ltac:(repeat constructor).
Example C43_plain_applies := @C43_plain D _ tag_arg.

(** ** C49: responses *)
Example C49_greeting_applies := proj1 (@C49_greeting D (Some CdAlert) (bs "all done") _ _ _ (or_introl eq_refl)) text_arg.
Example C49_status_applies := proj1 (@C49_status D (Some (bs "a1")) (Some CdAlert) (bs "all done") _ _ _ (or_introl eq_refl)) text_arg.
Example C49_status_wrong_applies := proj2 (proj2 (@C49_status D (Some (bs "a1")) (Some CdAlert) _ _ _ _ (or_introl eq_refl))) _ _ nul_arg_no_text.
Example C49_bye_applies := proj1 (@C49_bye D None (bs "all done")) text_arg.
Example C49_data_expunge_applies := @C49_data_expunge D 7 ltac:(discriminate).
Example C49_data_fetch_applies := @C49_data_fetch D 7 [MDUid 9] ltac:(discriminate).
Example C49_data_quota_applies := @C49_data_quota D _ [mkQuotaGet RStorage 1 2] str_arg_ok str_arg_fits.
Example C49_data_quota_root_applies := @C49_data_quota_root D _ [AAtom (bs "root")] str_arg_ok str_arg_fits.
Example C49_data_quota_error_applies := C49_data_quota_error _ [] _ _ nul_arg_wrong.
Example C49_code_numbers_applies := @C49_code_numbers D 7 ltac:(discriminate).
Example C49_data_capability_applies := proj1 (@C49_data_capability D [CapImap4Rev1]) ltac:(discriminate).
Example C49_code_lists_applies := proj1 (@C49_code_lists D [CapImap4Rev1]) ltac:(discriminate).
