(** Linear bounds for the parsers of CostCmd.v. *)

From Verif Require Import Bytes BytesFacts Dec Features Nom Types Utf8 Conv ParseCore ParseBody ParseCmd
  CostNom CostCore CostBody CostCmd CostFacts CostTac CostLin CostLin2 CostLin3.
From Coq Require Import Lia.

Local Open Scope nat_scope.

#[export] Instance L_nstring8 {F : features} : cst q_nstring8 [] [[[bDQ; "{"%byte; "~"%byte; "N"%byte; "n"%byte]]].
Proof. named q_nstring8. Qed.
#[export] Typeclasses Opaque q_nstring8.
#[export] Instance L_id_param {F : features} : cst q_id_param [] [[[bDQ; "{"%byte]]].
Proof. named q_id_param. Qed.
#[export] Typeclasses Opaque q_id_param.
#[export] Instance L_id_params_list {F : features} : cst q_id_params_list [[]] [[["("%byte; "N"%byte; "n"%byte]]].
Proof. named q_id_params_list. Qed.
#[export] Typeclasses Opaque q_id_params_list.
#[export] Instance L_id {F : features} : cst q_id [[]] [[]].
Proof. named q_id. Qed.
#[export] Typeclasses Opaque q_id.
#[export] Instance L_idle {F : features} : cst q_idle [[]] [[]].
Proof. named q_idle. Qed.
#[export] Typeclasses Opaque q_idle.
#[export] Instance L_idle_done {F : features} : cst q_idle_done [[]] [[]].
Proof. named q_idle_done. Qed.
#[export] Typeclasses Opaque q_idle_done.
#[export] Instance L_capability_enable {F : features} : cst q_capability_enable [] [[those is_atom_char]].
Proof. named q_capability_enable. Qed.
#[export] Typeclasses Opaque q_capability_enable.
#[export] Instance L_enable {F : features} : cst q_enable [[]] [[]].
Proof. named q_enable. Qed.
#[export] Typeclasses Opaque q_enable.
#[export] Instance L_compress {F : features} : cst q_compress [[]] [[]].
Proof. named q_compress. Qed.
#[export] Typeclasses Opaque q_compress.
#[export] Instance L_getquota {F : features} : cst q_getquota [[]] [[]].
Proof. named q_getquota. Qed.
#[export] Typeclasses Opaque q_getquota.
#[export] Instance L_getquotaroot {F : features} : cst q_getquotaroot [[]] [[]].
Proof. named q_getquotaroot. Qed.
#[export] Typeclasses Opaque q_getquotaroot.
#[export] Instance L_resource_name {F : features} : cst q_resource_name [] [[those is_atom_char]].
Proof. named q_resource_name. Qed.
#[export] Typeclasses Opaque q_resource_name.
#[export] Instance L_setquota_resource {F : features} : cst q_setquota_resource [] [[those is_atom_char]].
Proof. named q_setquota_resource. Qed.
#[export] Typeclasses Opaque q_setquota_resource.
#[export] Instance L_setquota {F : features} : cst q_setquota [[]] [[]].
Proof. named q_setquota. Qed.
#[export] Typeclasses Opaque q_setquota.
#[export] Instance L_entry_value {F : features} : cst q_entry_value [] [[those is_astring_char]; [[bDQ; "{"%byte]]].
Proof. named q_entry_value. Qed.
#[export] Typeclasses Opaque q_entry_value.
#[export] Instance L_entry_values {F : features} : cst q_entry_values [] [[["("%byte]]].
Proof. named q_entry_values. Qed.
#[export] Typeclasses Opaque q_entry_values.
#[export] Instance L_setmetadata {F : features} : cst q_setmetadata [[]] [[]].
Proof. named q_setmetadata. Qed.
#[export] Typeclasses Opaque q_setmetadata.
#[export] Instance L_getmetadata_option {F : features} : cst q_getmetadata_option [] [[]].
Proof. named q_getmetadata_option. Qed.
#[export] Typeclasses Opaque q_getmetadata_option.
#[export] Instance L_getmetadata_options {F : features} : cst q_getmetadata_options [] [[["("%byte]]].
Proof. named q_getmetadata_options. Qed.
#[export] Typeclasses Opaque q_getmetadata_options.
#[export] Instance L_entries {F : features} : cst q_entries [[]] [[]].
Proof. named q_entries. Qed.
#[export] Typeclasses Opaque q_entries.
#[export] Instance L_getmetadata {F : features} : cst q_getmetadata [[]] [[]].
Proof. named q_getmetadata. Qed.
#[export] Typeclasses Opaque q_getmetadata.
#[export] Instance L_namespace_command {F : features} : cst q_namespace_command [[]] [[]].
Proof. named q_namespace_command. Qed.
#[export] Typeclasses Opaque q_namespace_command.
#[export] Instance L_uid_expunge {F : features} : cst q_uid_expunge [[]] [[]].
Proof. named q_uid_expunge. Qed.
#[export] Typeclasses Opaque q_uid_expunge.
#[export] Instance L_move {F : features} : cst q_move [[]] [[]].
Proof. named q_move. Qed.
#[export] Typeclasses Opaque q_move.
#[export] Instance L_sort_key {F : features} : cst q_sort_key [] [[]].
Proof. named q_sort_key. Qed.
#[export] Typeclasses Opaque q_sort_key.
#[export] Instance L_sort_criterion {F : features} : cst q_sort_criterion [] [[]].
Proof. named q_sort_criterion. Qed.
#[export] Typeclasses Opaque q_sort_criterion.
#[export] Instance L_sort_criteria {F : features} : cst q_sort_criteria [] [[["("%byte]]].
Proof. named q_sort_criteria. Qed.
#[export] Typeclasses Opaque q_sort_criteria.
#[export] Instance L_sort {F : features} : cst q_sort [[]] [[]].
Proof. named q_sort. Qed.
#[export] Typeclasses Opaque q_sort.
#[export] Instance L_thread {F : features} : cst q_thread [[]] [[]].
Proof. named q_thread. Qed.
#[export] Typeclasses Opaque q_thread.
#[export] Instance L_command_any {F : features} : cst q_command_any [[]] [[]].
Proof. named q_command_any. Qed.
#[export] Typeclasses Opaque q_command_any.
#[export] Instance L_select_param {F : features} : cst q_select_param seq_rest [[]].
Proof. named q_select_param. Qed.
#[export] Typeclasses Opaque q_select_param.
#[export] Instance L_select_params {F : features} : cst q_select_params [[]] [[]].
Proof. named q_select_params. Qed.
#[export] Typeclasses Opaque q_select_params.
#[export] Instance L_append {F : features} : cst q_append [[]] [[]].
Proof. named q_append. Qed.
#[export] Typeclasses Opaque q_append.
#[export] Instance L_create {F : features} : cst q_create [[]] [[]].
Proof. named q_create. Qed.
#[export] Typeclasses Opaque q_create.
#[export] Instance L_delete {F : features} : cst q_delete [[]] [[]].
Proof. named q_delete. Qed.
#[export] Typeclasses Opaque q_delete.
#[export] Instance L_examine {F : features} : cst q_examine [[]] [[]].
Proof. named q_examine. Qed.
#[export] Typeclasses Opaque q_examine.
#[export] Instance L_list {F : features} : cst q_list [[]] [[]].
Proof. named q_list. Qed.
#[export] Typeclasses Opaque q_list.
#[export] Instance L_lsub {F : features} : cst q_lsub [[]] [[]].
Proof. named q_lsub. Qed.
#[export] Typeclasses Opaque q_lsub.
#[export] Instance L_rename {F : features} : cst q_rename [[]] [[]].
Proof. named q_rename. Qed.
#[export] Typeclasses Opaque q_rename.
#[export] Instance L_select {F : features} : cst q_select [[]] [[]].
Proof. named q_select. Qed.
#[export] Typeclasses Opaque q_select.
#[export] Instance L_status {F : features} : cst q_status [[]] [[]].
Proof. named q_status. Qed.
#[export] Typeclasses Opaque q_status.
#[export] Instance L_subscribe {F : features} : cst q_subscribe [[]] [[]].
Proof. named q_subscribe. Qed.
#[export] Typeclasses Opaque q_subscribe.
#[export] Instance L_unsubscribe {F : features} : cst q_unsubscribe [[]] [[]].
Proof. named q_unsubscribe. Qed.
#[export] Typeclasses Opaque q_unsubscribe.
#[export] Instance L_command_auth {F : features} : cst q_command_auth [[]] [[]].
Proof. named q_command_auth. Qed.
#[export] Typeclasses Opaque q_command_auth.
#[export] Instance L_auth_type {F : features} : cst q_auth_type [] [[]].
Proof. named q_auth_type. Qed.
#[export] Typeclasses Opaque q_auth_type.
#[export] Instance L_login {F : features} : cst q_login [[]] [[]].
Proof. named q_login. Qed.
#[export] Typeclasses Opaque q_login.
#[export] Instance L_authenticate {F : features} : cst q_authenticate [[]] [[]].
Proof. named q_authenticate. Qed.
#[export] Typeclasses Opaque q_authenticate.
#[export] Instance L_command_nonauth {F : features} : cst q_command_nonauth [[]] [[]].
Proof. named q_command_nonauth. Qed.
#[export] Typeclasses Opaque q_command_nonauth.
#[export] Instance L_copy {F : features} : cst q_copy [[]] [[]].
Proof. named q_copy. Qed.
#[export] Typeclasses Opaque q_copy.
#[export] Instance L_fetch_modifier {F : features} : cst q_fetch_modifier [] [[]].
Proof. named q_fetch_modifier. Qed.
#[export] Typeclasses Opaque q_fetch_modifier.
#[export] Instance L_fetch_modifiers {F : features} : cst q_fetch_modifiers [[]] [[]].
Proof. named q_fetch_modifiers. Qed.
#[export] Typeclasses Opaque q_fetch_modifiers.
#[export] Instance L_macro_or_items {F : features} : cst q_macro_or_items [[]] [[]].
Proof. named q_macro_or_items. Qed.
#[export] Typeclasses Opaque q_macro_or_items.
#[export] Instance L_fetch {F : features} : cst q_fetch [[]] [[]].
Proof. named q_fetch. Qed.
#[export] Typeclasses Opaque q_fetch.
#[export] Instance L_store_modifiers {F : features} : cst q_store_modifiers [[]] [[]].
Proof. named q_store_modifiers. Qed.
#[export] Typeclasses Opaque q_store_modifiers.
#[export] Instance L_store_att_flags {F : features} : cst q_store_att_flags [[]] [[]].
Proof. named q_store_att_flags. Qed.
#[export] Typeclasses Opaque q_store_att_flags.
#[export] Instance L_store {F : features} : cst q_store [[]] [[]].
Proof. named q_store. Qed.
#[export] Typeclasses Opaque q_store.
#[export] Instance L_uid {F : features} : cst q_uid [[]] [[]].
Proof. named q_uid. Qed.
#[export] Typeclasses Opaque q_uid.
#[export] Instance L_command_select {F : features} : cst q_command_select [[]] [[]].
Proof. named q_command_select. Qed.
#[export] Typeclasses Opaque q_command_select.
#[export] Instance L_command_body {F : features} : cst q_command_body [[]] [[]].
Proof. named q_command_body. Qed.
#[export] Typeclasses Opaque q_command_body.
#[export] Instance L_authenticate_data {F : features} : cst q_authenticate_data [[]] [[]].
Proof. named q_authenticate_data. Qed.
#[export] Typeclasses Opaque q_authenticate_data.
