(** Every parser of commands and of the data of responses is tidy (C57). *)

From Verif Require Import Bytes BytesFacts Dec Features Nom Types Utf8 Conv Base64 ParseCore ParseBody ParseCmd ParseResp
  SyncSpec SyncFacts SyncParse SyncCore.
Open Scope nat_scope.

Create HintDb tidydb.
Ltac tidy1 :=
  first
  [ solve [auto with tidydb nocore]
  | lazymatch goal with
    | |- seg calm (tag_no_case _) => apply tidy_tag_no_case; vm_compute; reflexivity
    | |- seg calm (tag _) => apply tidy_tag; vm_compute; reflexivity
    | |- seg calm (char _) => apply tidy_char; reflexivity
    | |- seg calm sp => apply tidy_char; reflexivity
    | |- seg calm dquote => apply tidy_char; reflexivity
    | |- seg calm (take_while _) => apply tidy_take_while; vm_compute; reflexivity
    | |- seg calm (take_while1 _) => apply tidy_take_while1; vm_compute; reflexivity
    | |- seg calm (take_while_m_n _ _ _) => apply tidy_take_while_m_n; vm_compute; reflexivity
    | |- seg calm (vec1 _) => apply tidy_vec1
    | |- seg calm (vec2 _) => apply tidy_vec2
    | |- seg calm (sep_list1 _ _) => apply tidy_sep_list1
    | |- seg calm (sep_list0 _ _) => apply tidy_sep_list0
    | |- seg calm (many0 _) => apply tidy_many0
    | |- seg calm (many1 _) => apply tidy_many1
    | |- seg calm (many_m _ _) => apply tidy_many_m
    | |- seg calm (delimited _ _ _) => apply tidy_delimited
    | |- seg calm (terminated _ _) => apply tidy_terminated
    | |- seg calm (gate _ _) => apply seg_gate; intros ?
    | |- seg calm (alt []) => apply seg_perr
    | |- seg calm (alt [?p]) => change (seg calm p)
    | |- seg calm (alt (_ :: _)) => apply seg_alt_cons
    | |- seg calm (opt _) => apply tidy_opt
    | |- seg calm (peek _) => apply tidy_peek
    | |- seg calm (recognize _) => apply seg_recognize
    | |- seg calm (pmap _ _) => apply seg_pmap
    | |- seg calm (value _ _) => apply seg_value
    | |- seg calm (map_res _ _) => apply seg_map_res
    | |- seg calm (expect _ _) => apply seg_expect
    | |- seg calm (validated _ _) => apply seg_expect
    | |- seg calm (ret _) => apply tidy_ret
    | |- seg calm (bind _ _) => apply seg_bind; [| intros ?]
    | |- seg calm perr => apply seg_perr
    | |- seg calm pfail => apply seg_pfail
    | |- seg calm (fun _ => RPanic) => apply seg_panic
    | |- seg calm (let '(_, _) := ?x in _) => destruct x
    | |- seg calm (if ?b then _ else _) => destruct b
    | |- seg calm (match ?x with _ => _ end) => destruct x
    end ].
Ltac tid := repeat tidy1.

#[export] Hint Resolve tidy_digits tidy_quoted tidy_literal tidy_literal8 : tidydb.

Section Tidy.
Context {F : features}.
Hypothesis no_utf8 : ext_utf8 = false.

Lemma tidy_number : tidy p_number.
Proof.
  unfold p_number. tid.
Qed.
Hint Resolve tidy_number : tidydb.

Lemma tidy_number64 : tidy p_number64.
Proof.
  unfold p_number64. tid.
Qed.
Hint Resolve tidy_number64 : tidydb.

Lemma tidy_nz_number : tidy p_nz_number.
Proof.
  unfold p_nz_number. tid.
Qed.
Hint Resolve tidy_nz_number : tidydb.

Lemma tidy_lit_mode : tidy p_lit_mode.
Proof.
  unfold p_lit_mode. tid.
Qed.
Hint Resolve tidy_lit_mode : tidydb.

Lemma tidy_string : tidy p_string.
Proof.
  unfold p_string. rewrite no_utf8. tid. discriminate.
Qed.
Hint Resolve tidy_string : tidydb.

Lemma tidy_astring : tidy p_astring.
Proof.
  unfold p_astring. tid.
Qed.
Hint Resolve tidy_astring : tidydb.

Lemma tidy_atom : tidy p_atom.
Proof.
  unfold p_atom. tid.
Qed.
Hint Resolve tidy_atom : tidydb.

Lemma tidy_nil : tidy p_nil.
Proof.
  unfold p_nil. tid.
Qed.
Hint Resolve tidy_nil : tidydb.

Lemma tidy_nstring : tidy p_nstring.
Proof.
  unfold p_nstring. tid.
Qed.
Hint Resolve tidy_nstring : tidydb.

Lemma tidy_base64 : tidy p_base64.
Proof.
  unfold p_base64. tid.
Qed.
Hint Resolve tidy_base64 : tidydb.

Lemma tidy_charset : tidy p_charset.
Proof.
  unfold p_charset. tid.
Qed.
Hint Resolve tidy_charset : tidydb.

Lemma tidy_tag_imap : tidy p_tag_imap.
Proof.
  unfold p_tag_imap. tid.
Qed.
Hint Resolve tidy_tag_imap : tidydb.

Lemma tidy_seq_number : tidy p_seq_number.
Proof.
  unfold p_seq_number. tid.
Qed.
Hint Resolve tidy_seq_number : tidydb.

Lemma tidy_seq_range : tidy p_seq_range.
Proof.
  unfold p_seq_range. tid.
Qed.
Hint Resolve tidy_seq_range : tidydb.

Lemma tidy_sequence_set : tidy p_sequence_set.
Proof.
  unfold p_sequence_set. tid.
Qed.
Hint Resolve tidy_sequence_set : tidydb.

Lemma tidy_list_mailbox : tidy p_list_mailbox.
Proof.
  unfold p_list_mailbox. tid.
Qed.
Hint Resolve tidy_list_mailbox : tidydb.

Lemma tidy_mailbox : tidy p_mailbox.
Proof.
  unfold p_mailbox. tid.
Qed.
Hint Resolve tidy_mailbox : tidydb.

Lemma tidy_flag : tidy p_flag.
Proof.
  unfold p_flag. tid.
Qed.
Hint Resolve tidy_flag : tidydb.

Lemma tidy_flag_list : tidy p_flag_list.
Proof.
  unfold p_flag_list. tid.
Qed.
Hint Resolve tidy_flag_list : tidydb.

Lemma tidy_flag_fetch : tidy p_flag_fetch.
Proof.
  intros i. unfold p_flag_fetch. assert (H : tidy (recognize (char bBS ;;; p_atom))) by tid. specialize (H i).
  assert (G : tidy (pmap FFFlag p_flag)) by tid. specialize (G i).
  destruct (recognize _ i) as [r s | | | e |]; auto. now destruct (eqi _ _).
Qed.
Hint Resolve tidy_flag_fetch : tidydb.

Lemma tidy_flag_perm : tidy p_flag_perm.
Proof.
  unfold p_flag_perm. tid.
Qed.
Hint Resolve tidy_flag_perm : tidydb.

Lemma tidy_mbx_list_flags : tidy p_mbx_list_flags.
Proof.
  unfold p_mbx_list_flags. tid.
Qed.
Hint Resolve tidy_mbx_list_flags : tidydb.

Lemma tidy_digit_m_n m n max: tidy (p_digit_m_n m n max).
Proof.
  unfold p_digit_m_n. tid.
Qed.
Hint Resolve tidy_digit_m_n : tidydb.

Lemma tidy_digit_1_2 : tidy p_digit_1_2.
Proof.
  unfold p_digit_1_2. tid.
Qed.
Hint Resolve tidy_digit_1_2 : tidydb.

Lemma tidy_digit_2 : tidy p_digit_2.
Proof.
  unfold p_digit_2. tid.
Qed.
Hint Resolve tidy_digit_2 : tidydb.

Lemma tidy_digit_4 : tidy p_digit_4.
Proof.
  unfold p_digit_4. tid.
Qed.
Hint Resolve tidy_digit_4 : tidydb.

Lemma tidy_date_month : tidy p_date_month.
Proof.
  unfold p_date_month. tid.
Qed.
Hint Resolve tidy_date_month : tidydb.

Lemma tidy_date_text : tidy p_date_text.
Proof.
  unfold p_date_text. tid.
Qed.
Hint Resolve tidy_date_text : tidydb.

Lemma tidy_date_opt : tidy p_date_opt.
Proof.
  unfold p_date_opt. tid.
Qed.
Hint Resolve tidy_date_opt : tidydb.

Lemma tidy_date : tidy p_date.
Proof.
  unfold p_date. tid.
Qed.
Hint Resolve tidy_date : tidydb.

Lemma tidy_time : tidy p_time.
Proof.
  unfold p_time. tid.
Qed.
Hint Resolve tidy_time : tidydb.

Lemma tidy_date_day_fixed : tidy p_date_day_fixed.
Proof.
  unfold p_date_day_fixed. tid.
Qed.
Hint Resolve tidy_date_day_fixed : tidydb.

Lemma tidy_zone : tidy p_zone.
Proof.
  unfold p_zone. tid.
Qed.
Hint Resolve tidy_zone : tidydb.

Lemma tidy_date_time : tidy p_date_time.
Proof.
  unfold p_date_time. tid.
Qed.
Hint Resolve tidy_date_time : tidydb.

Lemma tidy_mod_sequence_valzer : tidy p_mod_sequence_valzer.
Proof.
  unfold p_mod_sequence_valzer. tid.
Qed.
Hint Resolve tidy_mod_sequence_valzer : tidydb.

Lemma tidy_mod_sequence_value : tidy p_mod_sequence_value.
Proof.
  unfold p_mod_sequence_value. tid.
Qed.
Hint Resolve tidy_mod_sequence_value : tidydb.

Lemma tidy_search_sort_mod_seq : tidy p_search_sort_mod_seq.
Proof.
  unfold p_search_sort_mod_seq. tid.
Qed.
Hint Resolve tidy_search_sort_mod_seq : tidydb.

Lemma tidy_attr_flag : tidy p_attr_flag.
Proof.
  unfold p_attr_flag. tid.
Qed.
Hint Resolve tidy_attr_flag : tidydb.

Lemma tidy_entry_flag_name : tidy p_entry_flag_name.
Proof.
  unfold p_entry_flag_name. tid.
Qed.
Hint Resolve tidy_entry_flag_name : tidydb.

Lemma tidy_entry_type_req : tidy p_entry_type_req.
Proof.
  unfold p_entry_type_req. tid.
Qed.
Hint Resolve tidy_entry_type_req : tidydb.

Lemma tidy_search_modseq_ext : tidy p_search_modseq_ext.
Proof.
  unfold p_search_modseq_ext. tid.
Qed.
Hint Resolve tidy_search_modseq_ext : tidydb.

Lemma tidy_search_modsequence : tidy p_search_modsequence.
Proof.
  unfold p_search_modsequence. tid.
Qed.
Hint Resolve tidy_search_modsequence : tidydb.

Lemma tidy_status_att : tidy p_status_att.
Proof.
  unfold p_status_att. tid.
Qed.
Hint Resolve tidy_status_att : tidydb.

Lemma tidy_status_att_val : tidy p_status_att_val.
Proof.
  unfold p_status_att_val. tid.
Qed.
Hint Resolve tidy_status_att_val : tidydb.

Lemma tidy_status_att_list : tidy p_status_att_list.
Proof.
  unfold p_status_att_list. tid.
Qed.
Hint Resolve tidy_status_att_list : tidydb.

Lemma tidy_address : tidy p_address.
Proof.
  unfold p_address. tid.
Qed.
Hint Resolve tidy_address : tidydb.

Lemma tidy_addresses : tidy p_addresses.
Proof.
  unfold p_addresses. tid.
Qed.
Hint Resolve tidy_addresses : tidydb.

Lemma tidy_envelope : tidy p_envelope.
Proof.
  unfold p_envelope. tid.
Qed.
Hint Resolve tidy_envelope : tidydb.

Lemma tidy_pair : tidy p_pair.
Proof.
  unfold p_pair. tid.
Qed.
Hint Resolve tidy_pair : tidydb.

Lemma tidy_body_fld_param : tidy p_body_fld_param.
Proof.
  unfold p_body_fld_param. tid.
Qed.
Hint Resolve tidy_body_fld_param : tidydb.

Lemma tidy_body_fld_enc : tidy p_body_fld_enc.
Proof.
  unfold p_body_fld_enc. tid.
Qed.
Hint Resolve tidy_body_fld_enc : tidydb.

Lemma tidy_body_fld_octets : tidy p_body_fld_octets.
Proof.
  unfold p_body_fld_octets. tid.
Qed.
Hint Resolve tidy_body_fld_octets : tidydb.

Lemma tidy_body_fields : tidy p_body_fields.
Proof.
  unfold p_body_fields. tid.
Qed.
Hint Resolve tidy_body_fields : tidydb.

Lemma tidy_body_extension n: tidy (p_body_extension n).
Proof.
  induction n as [| n IH]; cbn [p_body_extension]; tid.
Qed.
Hint Resolve tidy_body_extension : tidydb.

Lemma tidy_body_fld_dsp : tidy p_body_fld_dsp.
Proof.
  unfold p_body_fld_dsp. tid.
Qed.
Hint Resolve tidy_body_fld_dsp : tidydb.

Lemma tidy_body_fld_lang : tidy p_body_fld_lang.
Proof.
  unfold p_body_fld_lang. tid.
Qed.
Hint Resolve tidy_body_fld_lang : tidydb.

Lemma tidy_location : tidy p_location.
Proof.
  unfold p_location. tid.
Qed.
Hint Resolve tidy_location : tidydb.

Lemma tidy_language : tidy p_language.
Proof.
  unfold p_language. tid.
Qed.
Hint Resolve tidy_language : tidydb.

Lemma tidy_disposition : tidy p_disposition.
Proof.
  unfold p_disposition. tid.
Qed.
Hint Resolve tidy_disposition : tidydb.

Lemma tidy_body_ext_1part : tidy p_body_ext_1part.
Proof.
  unfold p_body_ext_1part. tid.
Qed.
Hint Resolve tidy_body_ext_1part : tidydb.

Lemma tidy_body_ext_mpart : tidy p_body_ext_mpart.
Proof.
  unfold p_body_ext_mpart. tid.
Qed.
Hint Resolve tidy_body_ext_mpart : tidydb.

Lemma tidy_body_type_basic : tidy p_body_type_basic.
Proof.
  unfold p_body_type_basic. tid.
Qed.
Hint Resolve tidy_body_type_basic : tidydb.

Lemma tidy_media_message : tidy p_media_message.
Proof.
  unfold p_media_message. tid.
Qed.
Hint Resolve tidy_media_message : tidydb.

Lemma tidy_media_text : tidy p_media_text.
Proof.
  unfold p_media_text. tid.
Qed.
Hint Resolve tidy_media_text : tidydb.

Lemma tidy_body_type_text : tidy p_body_type_text.
Proof.
  unfold p_body_type_text. tid.
Qed.
Hint Resolve tidy_body_type_text : tidydb.

Lemma tidy_body_f fuel : forall n, tidy (p_body_f fuel n).
Proof.
  induction fuel as [| k IH]; intros n; cbn [p_body_f]; [apply seg_panic |]. destruct n as [| n]; [apply seg_pfail |].
  assert (M : tidy (p_body_type_msg (p_body_f k))) by (unfold p_body_type_msg; tid; apply IH).
  apply tidy_delimited; [tid | | tid]. apply seg_alt_cons.
  - unfold p_body_type_1part. destruct n; [apply seg_pfail |]. tid.
  - change (tidy (p_body_type_mpart (p_body_f k) n)). unfold p_body_type_mpart. destruct n; [apply seg_pfail |]. tid.
Qed.
Lemma tidy_body n : tidy (p_body n).
Proof. intros i. exact (tidy_body_f (S (length i)) n i). Qed.
Hint Resolve tidy_body : tidydb.

Lemma tidy_header_list : tidy p_header_list.
Proof.
  unfold p_header_list. tid.
Qed.
Hint Resolve tidy_header_list : tidydb.

Lemma tidy_section_part : tidy p_section_part.
Proof.
  unfold p_section_part. tid.
Qed.
Hint Resolve tidy_section_part : tidydb.

Lemma tidy_section_msgtext : tidy p_section_msgtext.
Proof.
  unfold p_section_msgtext. tid.
Qed.
Hint Resolve tidy_section_msgtext : tidydb.

Lemma tidy_section_text : tidy p_section_text.
Proof.
  unfold p_section_text. tid.
Qed.
Hint Resolve tidy_section_text : tidydb.

Lemma tidy_section_spec : tidy p_section_spec.
Proof.
  unfold p_section_spec. tid.
Qed.
Hint Resolve tidy_section_spec : tidydb.

Lemma tidy_section : tidy p_section.
Proof.
  unfold p_section. tid.
Qed.
Hint Resolve tidy_section : tidydb.

Lemma tidy_section_binary : tidy p_section_binary.
Proof.
  unfold p_section_binary. tid.
Qed.
Hint Resolve tidy_section_binary : tidydb.

Lemma tidy_partial : tidy p_partial.
Proof.
  unfold p_partial. tid.
Qed.
Hint Resolve tidy_partial : tidydb.

Lemma tidy_fetch_att : tidy p_fetch_att.
Proof.
  unfold p_fetch_att. tid.
Qed.
Hint Resolve tidy_fetch_att : tidydb.

Lemma tidy_msg_att_dynamic : tidy p_msg_att_dynamic.
Proof.
  unfold p_msg_att_dynamic. tid.
Qed.
Hint Resolve tidy_msg_att_dynamic : tidydb.

Lemma tidy_nstring8 : tidy p_nstring8.
Proof.
  unfold p_nstring8. tid.
Qed.
Hint Resolve tidy_nstring8 : tidydb.

Lemma tidy_msg_att_static : tidy p_msg_att_static.
Proof.
  unfold p_msg_att_static. tid.
Qed.
Hint Resolve tidy_msg_att_static : tidydb.

Lemma tidy_msg_att : tidy p_msg_att.
Proof.
  unfold p_msg_att. tid.
Qed.
Hint Resolve tidy_msg_att : tidydb.

Lemma tidy_search_key n: tidy (p_search_key n).
Proof.
  induction n as [| n IH]; cbn [p_search_key]; tid.
Qed.
Hint Resolve tidy_search_key : tidydb.

Lemma tidy_search_keys : tidy p_search_keys.
Proof.
  unfold p_search_keys. tid.
Qed.
Hint Resolve tidy_search_keys : tidydb.

Lemma tidy_search : tidy p_search.
Proof.
  unfold p_search. tid.
Qed.
Hint Resolve tidy_search : tidydb.

Lemma tidy_search_criteria : tidy p_search_criteria.
Proof.
  unfold p_search_criteria. tid.
Qed.
Hint Resolve tidy_search_criteria : tidydb.

Lemma tidy_id_param : tidy p_id_param.
Proof.
  unfold p_id_param. tid.
Qed.
Hint Resolve tidy_id_param : tidydb.

Lemma tidy_id_params_list : tidy p_id_params_list.
Proof.
  unfold p_id_params_list. tid.
Qed.
Hint Resolve tidy_id_params_list : tidydb.

Lemma tidy_id : tidy p_id.
Proof.
  unfold p_id. tid.
Qed.
Hint Resolve tidy_id : tidydb.

Lemma tidy_idle : tidy p_idle.
Proof.
  unfold p_idle. tid.
Qed.
Hint Resolve tidy_idle : tidydb.

Lemma tidy_capability_enable : tidy p_capability_enable.
Proof.
  unfold p_capability_enable. tid.
Qed.
Hint Resolve tidy_capability_enable : tidydb.

Lemma tidy_enable : tidy p_enable.
Proof.
  unfold p_enable. tid.
Qed.
Hint Resolve tidy_enable : tidydb.

Lemma tidy_compress : tidy p_compress.
Proof.
  unfold p_compress. tid.
Qed.
Hint Resolve tidy_compress : tidydb.

Lemma tidy_getquota : tidy p_getquota.
Proof.
  unfold p_getquota. tid.
Qed.
Hint Resolve tidy_getquota : tidydb.

Lemma tidy_getquotaroot : tidy p_getquotaroot.
Proof.
  unfold p_getquotaroot. tid.
Qed.
Hint Resolve tidy_getquotaroot : tidydb.

Lemma tidy_resource_name : tidy p_resource_name.
Proof.
  unfold p_resource_name. tid.
Qed.
Hint Resolve tidy_resource_name : tidydb.

Lemma tidy_setquota_resource : tidy p_setquota_resource.
Proof.
  unfold p_setquota_resource. tid.
Qed.
Hint Resolve tidy_setquota_resource : tidydb.

Lemma tidy_setquota : tidy p_setquota.
Proof.
  unfold p_setquota. tid.
Qed.
Hint Resolve tidy_setquota : tidydb.

Lemma tidy_entry_value : tidy p_entry_value.
Proof.
  unfold p_entry_value. tid.
Qed.
Hint Resolve tidy_entry_value : tidydb.

Lemma tidy_entry_values : tidy p_entry_values.
Proof.
  unfold p_entry_values. tid.
Qed.
Hint Resolve tidy_entry_values : tidydb.

Lemma tidy_setmetadata : tidy p_setmetadata.
Proof.
  unfold p_setmetadata. tid.
Qed.
Hint Resolve tidy_setmetadata : tidydb.

Lemma tidy_getmetadata_option : tidy p_getmetadata_option.
Proof.
  unfold p_getmetadata_option. tid.
Qed.
Hint Resolve tidy_getmetadata_option : tidydb.

Lemma tidy_getmetadata_options : tidy p_getmetadata_options.
Proof.
  unfold p_getmetadata_options. tid.
Qed.
Hint Resolve tidy_getmetadata_options : tidydb.

Lemma tidy_entries : tidy p_entries.
Proof.
  unfold p_entries. tid.
Qed.
Hint Resolve tidy_entries : tidydb.

Lemma tidy_getmetadata : tidy p_getmetadata.
Proof.
  unfold p_getmetadata. tid.
Qed.
Hint Resolve tidy_getmetadata : tidydb.

Lemma tidy_namespace_command : tidy p_namespace_command.
Proof.
  unfold p_namespace_command. tid.
Qed.
Hint Resolve tidy_namespace_command : tidydb.

Lemma tidy_uid_expunge : tidy p_uid_expunge.
Proof.
  unfold p_uid_expunge. tid.
Qed.
Hint Resolve tidy_uid_expunge : tidydb.

Lemma tidy_move : tidy p_move.
Proof.
  unfold p_move. tid.
Qed.
Hint Resolve tidy_move : tidydb.

Lemma tidy_sort_key : tidy p_sort_key.
Proof.
  unfold p_sort_key. tid.
Qed.
Hint Resolve tidy_sort_key : tidydb.

Lemma tidy_sort_criterion : tidy p_sort_criterion.
Proof.
  unfold p_sort_criterion. tid.
Qed.
Hint Resolve tidy_sort_criterion : tidydb.

Lemma tidy_sort_criteria : tidy p_sort_criteria.
Proof.
  unfold p_sort_criteria. tid.
Qed.
Hint Resolve tidy_sort_criteria : tidydb.

Lemma tidy_sort : tidy p_sort.
Proof.
  unfold p_sort. tid.
Qed.
Hint Resolve tidy_sort : tidydb.

Lemma tidy_thread : tidy p_thread.
Proof.
  unfold p_thread. tid.
Qed.
Hint Resolve tidy_thread : tidydb.

Lemma tidy_command_any : tidy p_command_any.
Proof.
  unfold p_command_any. tid.
Qed.
Hint Resolve tidy_command_any : tidydb.

Lemma tidy_select_param : tidy p_select_param.
Proof.
  unfold p_select_param. tid.
Qed.
Hint Resolve tidy_select_param : tidydb.

Lemma tidy_select_params : tidy p_select_params.
Proof.
  unfold p_select_params. tid.
Qed.
Hint Resolve tidy_select_params : tidydb.

Lemma tidy_append : tidy p_append.
Proof.
  unfold p_append. tid.
Qed.
Hint Resolve tidy_append : tidydb.

Lemma tidy_create : tidy p_create.
Proof.
  unfold p_create. tid.
Qed.
Hint Resolve tidy_create : tidydb.

Lemma tidy_delete : tidy p_delete.
Proof.
  unfold p_delete. tid.
Qed.
Hint Resolve tidy_delete : tidydb.

Lemma tidy_examine : tidy p_examine.
Proof.
  unfold p_examine. tid.
Qed.
Hint Resolve tidy_examine : tidydb.

Lemma tidy_list : tidy p_list.
Proof.
  unfold p_list. tid.
Qed.
Hint Resolve tidy_list : tidydb.

Lemma tidy_lsub : tidy p_lsub.
Proof.
  unfold p_lsub. tid.
Qed.
Hint Resolve tidy_lsub : tidydb.

Lemma tidy_rename : tidy p_rename.
Proof.
  unfold p_rename. tid.
Qed.
Hint Resolve tidy_rename : tidydb.

Lemma tidy_select : tidy p_select.
Proof.
  unfold p_select. tid.
Qed.
Hint Resolve tidy_select : tidydb.

Lemma tidy_status : tidy p_status.
Proof.
  unfold p_status. tid.
Qed.
Hint Resolve tidy_status : tidydb.

Lemma tidy_subscribe : tidy p_subscribe.
Proof.
  unfold p_subscribe. tid.
Qed.
Hint Resolve tidy_subscribe : tidydb.

Lemma tidy_unsubscribe : tidy p_unsubscribe.
Proof.
  unfold p_unsubscribe. tid.
Qed.
Hint Resolve tidy_unsubscribe : tidydb.

Lemma tidy_command_auth : tidy p_command_auth.
Proof.
  unfold p_command_auth. tid.
Qed.
Hint Resolve tidy_command_auth : tidydb.

Lemma tidy_auth_type : tidy p_auth_type.
Proof.
  unfold p_auth_type. tid.
Qed.
Hint Resolve tidy_auth_type : tidydb.

Lemma tidy_login : tidy p_login.
Proof.
  unfold p_login. tid.
Qed.
Hint Resolve tidy_login : tidydb.

Lemma tidy_authenticate : tidy p_authenticate.
Proof.
  unfold p_authenticate. tid.
Qed.
Hint Resolve tidy_authenticate : tidydb.

Lemma tidy_command_nonauth : tidy p_command_nonauth.
Proof.
  unfold p_command_nonauth. tid.
Qed.
Hint Resolve tidy_command_nonauth : tidydb.

Lemma tidy_copy : tidy p_copy.
Proof.
  unfold p_copy. tid.
Qed.
Hint Resolve tidy_copy : tidydb.

Lemma tidy_fetch_modifier : tidy p_fetch_modifier.
Proof.
  unfold p_fetch_modifier. tid.
Qed.
Hint Resolve tidy_fetch_modifier : tidydb.

Lemma tidy_fetch_modifiers : tidy p_fetch_modifiers.
Proof.
  unfold p_fetch_modifiers. tid.
Qed.
Hint Resolve tidy_fetch_modifiers : tidydb.

Lemma tidy_macro_or_items : tidy p_macro_or_items.
Proof.
  unfold p_macro_or_items. tid.
Qed.
Hint Resolve tidy_macro_or_items : tidydb.

Lemma tidy_fetch : tidy p_fetch.
Proof.
  unfold p_fetch. tid.
Qed.
Hint Resolve tidy_fetch : tidydb.

Lemma tidy_store_modifiers : tidy p_store_modifiers.
Proof.
  unfold p_store_modifiers. tid.
Qed.
Hint Resolve tidy_store_modifiers : tidydb.

Lemma tidy_store_att_flags : tidy p_store_att_flags.
Proof.
  unfold p_store_att_flags. tid.
Qed.
Hint Resolve tidy_store_att_flags : tidydb.

Lemma tidy_store : tidy p_store.
Proof.
  unfold p_store. tid.
Qed.
Hint Resolve tidy_store : tidydb.

Lemma tidy_uid : tidy p_uid.
Proof.
  unfold p_uid. tid.
Qed.
Hint Resolve tidy_uid : tidydb.

Lemma tidy_command_select : tidy p_command_select.
Proof.
  unfold p_command_select. tid.
Qed.
Hint Resolve tidy_command_select : tidydb.

Lemma tidy_metadata_code : tidy p_metadata_code.
Proof.
  unfold p_metadata_code. tid.
Qed.
Hint Resolve tidy_metadata_code : tidydb.

Lemma tidy_metadata_resp : tidy p_metadata_resp.
Proof.
  unfold p_metadata_resp. tid.
Qed.
Hint Resolve tidy_metadata_resp : tidydb.

Lemma tidy_delimiter : tidy p_delimiter.
Proof.
  unfold p_delimiter. apply seg_alt_cons; [| tid]. apply seg_pmap. unfold delimited.
  apply seg_bind; [tid |]. intros _. apply (tidy_closed_char _ (fun x _ => ret x)); [apply within_seg, within_quoted_char | reflexivity |].
  intros x _. apply tidy_ret.
Qed.
Hint Resolve tidy_delimiter : tidydb.

Lemma tidy_namespace_ext : tidy p_namespace_ext.
Proof.
  unfold p_namespace_ext. tid.
Qed.
Hint Resolve tidy_namespace_ext : tidydb.

Lemma tidy_namespace_descr : tidy p_namespace_descr.
Proof.
  unfold p_namespace_descr. tid.
Qed.
Hint Resolve tidy_namespace_descr : tidydb.

Lemma tidy_namespace : tidy p_namespace.
Proof.
  unfold p_namespace. tid.
Qed.
Hint Resolve tidy_namespace : tidydb.

Lemma tidy_namespace_response : tidy p_namespace_response.
Proof.
  unfold p_namespace_response. tid.
Qed.
Hint Resolve tidy_namespace_response : tidydb.

Lemma tidy_quota_sp : tidy p_quota_sp.
Proof.
  unfold p_quota_sp. tid.
Qed.
Hint Resolve tidy_quota_sp : tidydb.

Lemma tidy_quota_resource : tidy p_quota_resource.
Proof.
  unfold p_quota_resource. tid.
Qed.
Hint Resolve tidy_quota_resource : tidydb.

Lemma tidy_quota_response : tidy p_quota_response.
Proof.
  unfold p_quota_response. tid.
Qed.
Hint Resolve tidy_quota_response : tidydb.

Lemma tidy_quotaroot_response : tidy p_quotaroot_response.
Proof.
  unfold p_quotaroot_response. tid.
Qed.
Hint Resolve tidy_quotaroot_response : tidydb.

Lemma tidy_thread_list n: tidy (p_thread_list n).
Proof.
  induction n as [| n IH]; cbn [p_thread_list]; tid.
Qed.
Hint Resolve tidy_thread_list : tidydb.

Lemma tidy_thread_data : tidy p_thread_data.
Proof.
  unfold p_thread_data. tid.
Qed.
Hint Resolve tidy_thread_data : tidydb.

Lemma tidy_uid_range : tidy p_uid_range.
Proof.
  unfold p_uid_range. tid.
Qed.
Hint Resolve tidy_uid_range : tidydb.

Lemma tidy_uid_set : tidy p_uid_set.
Proof.
  unfold p_uid_set. tid.
Qed.
Hint Resolve tidy_uid_set : tidydb.

Lemma tidy_resp_code_apnd : tidy p_resp_code_apnd.
Proof.
  unfold p_resp_code_apnd. tid.
Qed.
Hint Resolve tidy_resp_code_apnd : tidydb.

Lemma tidy_resp_code_copy : tidy p_resp_code_copy.
Proof.
  unfold p_resp_code_copy. tid.
Qed.
Hint Resolve tidy_resp_code_copy : tidydb.

Lemma tidy_enable_data : tidy p_enable_data.
Proof.
  unfold p_enable_data. tid.
Qed.
Hint Resolve tidy_enable_data : tidydb.

Lemma tidy_mailbox_list : tidy p_mailbox_list.
Proof.
  unfold p_mailbox_list. tid.
Qed.
Hint Resolve tidy_mailbox_list : tidydb.

Lemma tidy_nums : tidy p_nums.
Proof.
  unfold p_nums. tid.
Qed.
Hint Resolve tidy_nums : tidydb.

Lemma tidy_opt_modseq : tidy p_opt_modseq.
Proof.
  unfold p_opt_modseq. tid.
Qed.
Hint Resolve tidy_opt_modseq : tidydb.

Lemma tidy_opt_sp quirk: tidy (p_opt_sp quirk).
Proof.
  unfold p_opt_sp. tid.
Qed.
Hint Resolve tidy_opt_sp : tidydb.

Lemma tidy_mailbox_data : tidy p_mailbox_data.
Proof.
  unfold p_mailbox_data. tid.
Qed.
Hint Resolve tidy_mailbox_data : tidydb.

Lemma tidy_capability : tidy p_capability.
Proof.
  unfold p_capability. tid.
Qed.
Hint Resolve tidy_capability : tidydb.

Lemma tidy_capability_data : tidy p_capability_data.
Proof.
  unfold p_capability_data. tid.
Qed.
Hint Resolve tidy_capability_data : tidydb.

Lemma tidy_resp_text_code : tidy p_resp_text_code.
Proof.
  unfold p_resp_text_code. tid.
Qed.
Hint Resolve tidy_resp_text_code : tidydb.

Lemma tidy_code_other : tidy p_code_other.
Proof.
  unfold p_code_other, terminated. apply seg_pmap. apply (tidy_closed _ (fun _ => tg "]") (fun x _ => ret x) "]"%byte).
  - apply seg_take_while; [| intros w W; apply (free_of is_code_other_char); [| exact W]]; apply byte_impl; vm_compute; reflexivity.
  - reflexivity.
  - intros _ [| x i]; right; [reflexivity |]. cbn. destruct (beq x "]"); [eauto | reflexivity].
  - intros x _. apply tidy_ret.
Qed.
Hint Resolve tidy_code_other : tidydb.

Lemma tidy_message_data : tidy p_message_data.
Proof.
  unfold p_message_data. tid.
Qed.
Hint Resolve tidy_message_data : tidydb.

End Tidy.
