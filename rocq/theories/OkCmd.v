(** [ok] for the parsers of ParseCmd.v. *)

From Verif Require Import Bytes BytesFacts Dec Features Nom Types Utf8 Conv
  ParserFacts ParseCore ParseBody ParseCmd Valid OkTac OkCore OkBody.
Open Scope nat_scope.

Section OkCmd.
Context {F : features}.
Notation lv := LDecoded.
Ltac nx x H := eapply ok_bind; [oks |]; intros x H.

(** *** extensions *)
Lemma ok_p_id_param k : ok k (vpair (v_istring lv) (v_nstring lv)) p_id_param.
Proof. unfold p_id_param. oks. Qed.
Hint Resolve ok_p_id_param : okdb.
Lemma ok_p_id_params_list k : ok k (v_id_params lv) p_id_params_list.
Proof.
  unfold p_id_params_list. apply ok_alt_cons; [| oks].
  apply (ok_pmap k (forallb (vpair (v_istring lv) (v_nstring lv)))).
  - destruct quirk_trailing_space_id; oks.
  - intros [| x l] H; [reflexivity | exact H].
Qed.
Hint Resolve ok_p_id_params_list : okdb.
Lemma ok_p_id k : ok k (v_id_params lv) p_id.
Proof. unfold p_id. oks. Qed.
Lemma ok_p_idle k : ok k (v_command_body lv) p_idle.
Proof. unfold p_idle. oks. Qed.
Lemma ok_p_idle_done k : ok k any p_idle_done.
Proof. unfold p_idle_done. oks. Qed.
Hint Resolve ok_p_id ok_p_idle : okdb.

Lemma capability_enable_from_ok a :
  atom_ok a = true -> v_capability_enable (capability_enable_from a) = true.
Proof.
  intros H. pose proof (eq_refl (capability_enable_from a)) as E.
  unfold capability_enable_from at 2 in E.
  repeat match type of E with context [if ?c then _ else _] =>
    let X := fresh "X" in destruct c eqn:X end; rewrite E; cbn; rewrite ?H; cbn;
    try (rewrite E; reflexivity).
  all: repeat match goal with H : (_ && _)%bool = true |- _ => apply andb_true_iff in H as [? ?] end;
    auto.
Qed.
Lemma ok_p_capability_enable k : ok k v_capability_enable p_capability_enable.
Proof. unfold p_capability_enable. eapply ok_pmap; [oks |]. apply capability_enable_from_ok. Qed.
Hint Resolve ok_p_capability_enable : okdb.
Lemma ok_p_enable k : ok k (v_command_body lv) p_enable.
Proof. unfold p_enable. oks. Qed.
Lemma ok_p_compress k : ok k (v_command_body lv) p_compress.
Proof.
  unfold p_compress. nx x Hx. eapply (ok_pmap k any); [oks |]. okv.
Qed.
Lemma ok_p_getquota k : ok k (v_command_body lv) p_getquota.
Proof. unfold p_getquota. oks. Qed.
Lemma ok_p_getquotaroot k : ok k (v_command_body lv) p_getquotaroot.
Proof. unfold p_getquotaroot. oks. Qed.
Lemma resource_from_ok a : atom_ok a = true -> v_resource (resource_from a) = true.
Proof.
  intros H. pose proof (eq_refl (resource_from a)) as E.
  unfold resource_from at 2 in E.
  repeat match type of E with context [if ?c then _ else _] =>
    let X := fresh "X" in destruct c eqn:X end; rewrite E; cbn; rewrite ?H; cbn;
    try (rewrite E); reflexivity.
Qed.
Lemma ok_p_resource_name k : ok k v_resource p_resource_name.
Proof. unfold p_resource_name. eapply ok_pmap; [oks |]. apply resource_from_ok. Qed.
Hint Resolve ok_p_resource_name : okdb.
Lemma ok_p_setquota_resource k : ok k v_quota_set p_setquota_resource.
Proof. unfold p_setquota_resource. oks. apply ok_ret. unfold v_quota_set. okv. Qed.
Hint Resolve ok_p_setquota_resource : okdb.
Lemma ok_p_setquota k : ok k (v_command_body lv) p_setquota.
Proof. unfold p_setquota. oks. Qed.
Hint Resolve ok_p_enable ok_p_compress ok_p_getquota ok_p_getquotaroot ok_p_setquota : okdb.

Lemma ok_p_entry_value k : ok k (v_entry_value lv) p_entry_value.
Proof. unfold p_entry_value. oks. apply ok_ret. unfold v_entry_value. okv. Qed.
Hint Resolve ok_p_entry_value : okdb.
Lemma ok_p_entry_values k : ok k (v1 (v_entry_value lv)) p_entry_values.
Proof. unfold p_entry_values. oks. Qed.
Hint Resolve ok_p_entry_values : okdb.
Lemma ok_p_setmetadata k : ext_metadata = true -> ok k (v_command_body lv) p_setmetadata.
Proof. intros X. unfold p_setmetadata. oks. Qed.
Lemma ok_p_getmetadata_option k : ok k v_get_metadata_option p_getmetadata_option.
Proof.
  unfold p_getmetadata_option. apply ok_alt_cons; [oks |]. apply ok_alt_cons; [| oks].
  apply (ok_pmap k any); [oks | okv].
Qed.
Hint Resolve ok_p_getmetadata_option : okdb.
Lemma ok_p_getmetadata_options k : ok k (v1 v_get_metadata_option) p_getmetadata_options.
Proof. unfold p_getmetadata_options. oks. Qed.
Hint Resolve ok_p_getmetadata_options : okdb.
Lemma ok_p_entries k : ok k (v1 (v_astring lv)) p_entries.
Proof.
  unfold p_entries. apply ok_alt_cons; [| oks]. eapply ok_pmap; [oks |]. intros a H.
  unfold v1. cbn. now rewrite H.
Qed.
Hint Resolve ok_p_entries : okdb.
Lemma ok_p_getmetadata k : ext_metadata = true -> ok k (v_command_body lv) p_getmetadata.
Proof.
  intros X. unfold p_getmetadata. nx x Hx. nx o Ho. nx y Hy. nx m Hm. nx z Hz. nx es Hes.
  apply ok_ret. cbn. rewrite X, Hm, Hes. cbn. rewrite ?andb_true_r. now apply forallb_dflt1.
Qed.
Lemma ok_p_namespace_command k : ext_namespace = true ->
  ok k (v_command_body lv) p_namespace_command.
Proof. intros X. unfold p_namespace_command. eapply ok_value; [oks |]. exact X. Qed.
Hint Resolve ok_p_setmetadata ok_p_getmetadata ok_p_namespace_command : okdb.
Lemma ok_p_uid_expunge k : ok k (v_command_body lv) p_uid_expunge.
Proof. unfold p_uid_expunge. oks. Qed.
Hint Resolve ok_p_uid_expunge : okdb.

Lemma ok_p_sort_key k : ok k any p_sort_key.
Proof. unfold p_sort_key. oks. Qed.
Hint Resolve ok_p_sort_key : okdb.
Lemma ok_p_sort_criterion k : ok k any p_sort_criterion.
Proof. unfold p_sort_criterion. oks. Qed.
Hint Resolve ok_p_sort_criterion : okdb.
Lemma ok_p_sort_criteria k : ok k nonempty p_sort_criteria.
Proof.
  unfold p_sort_criteria. eapply ok_weaken; [oks |]. intros l H.
  now apply andb_true_iff in H as [H _].
Qed.
Hint Resolve ok_p_sort_criteria : okdb.
Lemma ok_p_sort k : ok k (v_command_body lv) p_sort.
Proof.
  unfold p_sort. nx u Hu. nx x Hx. nx sc Hsc. nx y Hy. nx z Hz. destruct z as [cs ks].
  unfold vpair in Hz. cbn [fst snd] in Hz. apply andb_true_iff in Hz as [H1 H2]. apply ok_ret.
  cbn. now rewrite Hsc, H1, H2.
Qed.
Lemma threading_algorithm_from_ok a :
  atom_ok a = true -> v_threading_algorithm (threading_algorithm_from a) = true.
Proof.
  intros H. pose proof (eq_refl (threading_algorithm_from a)) as E.
  unfold threading_algorithm_from at 2 in E.
  repeat match type of E with context [if ?c then _ else _] =>
    let X := fresh "X" in destruct c eqn:X end; rewrite E; cbn; rewrite ?H; cbn;
    try (rewrite E); reflexivity.
Qed.
Lemma sort_algorithm_from_ok a :
  atom_ok a = true -> v_sort_algorithm (sort_algorithm_from a) = true.
Proof.
  intros H. pose proof (eq_refl (sort_algorithm_from a)) as E.
  unfold sort_algorithm_from at 2 in E.
  repeat match type of E with context [if ?c then _ else _] =>
    let X := fresh "X" in destruct c eqn:X end; rewrite E; cbn; rewrite ?H; cbn;
    try (rewrite E); reflexivity.
Qed.
Lemma ok_p_thread k : ok k (v_command_body lv) p_thread.
Proof.
  unfold p_thread. nx u Hu. nx x Hx.
  apply (ok_bind k v_threading_algorithm).
  { eapply ok_pmap; [oks |]. apply threading_algorithm_from_ok. }
  intros a Ha. nx y Hy. nx z Hz. destruct z as [cs ks].
  unfold vpair in Hz. cbn [fst snd] in Hz. apply andb_true_iff in Hz as [H1 H2]. apply ok_ret.
  cbn. now rewrite Ha, H1, H2.
Qed.
Hint Resolve ok_p_sort ok_p_thread : okdb.

(** *** command.rs *)
Lemma ok_p_command_any k : ok k (v_command_body lv) p_command_any.
Proof. unfold p_command_any. oks. Qed.
Lemma ok_p_select_param k : ok k (v_select_parameter lv) p_select_param.
Proof. unfold p_select_param. oks. Qed.
Hint Resolve ok_p_select_param : okdb.
Lemma ok_gated {A} k (v : A -> bool) p : ok k (v1 v) p ->
  ok k (v_gated ext_condstore_qresync v)
    (if ext_condstore_qresync then pmap dflt (opt p) else ret []).
Proof.
  intros H. unfold v_gated. destruct ext_condstore_qresync.
  - cbn [orb andb]. now apply ok_opt_dflt.
  - now apply ok_ret.
Qed.
Lemma ok_p_select_params k : ok k (v_gated ext_condstore_qresync (v_select_parameter lv)) p_select_params.
Proof. unfold p_select_params. apply ok_gated. oks. Qed.
Hint Resolve ok_p_select_params : okdb.

Lemma ok_p_append k : ok k (v_command_body lv) p_append.
Proof.
  unfold p_append. nx x Hx. nx m Hm. nx fl Hfl. nx d Hd. nx y Hy.
  apply (ok_bind k (v_lit_or_lit8 lv)); [oks |]. intros msg Hmsg. apply ok_ret.
  cbn. rewrite Hm, Hd, Hmsg, ?andb_true_r. cbn [andb]. now apply forallb_dflt.
Qed.
Lemma ok_p_create k : ok k (v_command_body lv) p_create.
Proof. unfold p_create. oks. Qed.
Lemma ok_p_delete k : ok k (v_command_body lv) p_delete.
Proof. unfold p_delete. oks. Qed.
Lemma ok_p_examine k : ok k (v_command_body lv) p_examine.
Proof. unfold p_examine. oks. Qed.
Lemma ok_p_list k : ok k (v_command_body lv) p_list.
Proof. unfold p_list. oks. Qed.
Lemma ok_p_lsub k : ok k (v_command_body lv) p_lsub.
Proof. unfold p_lsub. oks. Qed.
Lemma ok_p_rename k : ok k (v_command_body lv) p_rename.
Proof. unfold p_rename. oks. Qed.
Lemma ok_p_select k : ok k (v_command_body lv) p_select.
Proof. unfold p_select. oks. Qed.
Lemma ok_p_status k : ok k (v_command_body lv) p_status.
Proof. unfold p_status. oks. Qed.
Lemma ok_p_subscribe k : ok k (v_command_body lv) p_subscribe.
Proof. unfold p_subscribe. oks. Qed.
Lemma ok_p_unsubscribe k : ok k (v_command_body lv) p_unsubscribe.
Proof. unfold p_unsubscribe. oks. Qed.
Hint Resolve ok_p_append ok_p_create ok_p_delete ok_p_examine ok_p_list ok_p_lsub ok_p_rename
  ok_p_select ok_p_status ok_p_subscribe ok_p_unsubscribe ok_p_command_any : okdb.
Lemma ok_p_command_auth k : ok k (v_command_body lv) p_command_auth.
Proof. unfold p_command_auth. oks. Qed.

Lemma auth_mechanism_from_ok a :
  atom_ok a = true -> v_auth_mechanism lv (auth_mechanism_from a) = true.
Proof.
  intros H. pose proof (eq_refl (auth_mechanism_from a)) as E.
  unfold auth_mechanism_from at 2 in E.
  repeat match type of E with context [if ?c then _ else _] =>
    let X := fresh "X" in destruct c eqn:X end; rewrite E; cbn; rewrite ?H; cbn;
    try (rewrite E); reflexivity.
Qed.
Lemma ok_p_auth_type k : ok k (v_auth_mechanism lv) p_auth_type.
Proof. unfold p_auth_type. eapply ok_pmap; [oks |]. apply auth_mechanism_from_ok. Qed.
Hint Resolve ok_p_auth_type : okdb.
Lemma ok_p_login k : ok k (v_command_body lv) p_login.
Proof. unfold p_login. oks. Qed.
Lemma ok_p_authenticate k : ok k (v_command_body lv) p_authenticate.
Proof. unfold p_authenticate. oks. Qed.
Hint Resolve ok_p_login ok_p_authenticate ok_p_command_auth : okdb.
Lemma ok_p_command_nonauth k : ok k (v_command_body lv) p_command_nonauth.
Proof. unfold p_command_nonauth. oks. Qed.

Definition v_uid_able (c : command_body) : bool := v_command_body lv c && is_some (set_uid c).
Lemma uid_able c : v_uid_able c = true -> v_command_body lv c = true.
Proof. unfold v_uid_able. intros H. now apply andb_true_iff in H as [H _]. Qed.
Lemma ok_p_copy k : ok k v_uid_able p_copy.
Proof. unfold p_copy, v_uid_able. oks. Qed.
Lemma ok_p_move k : ok k v_uid_able p_move.
Proof. unfold p_move, v_uid_able. oks. Qed.
Lemma ok_p_fetch_modifiers k : ok k (v_gated ext_condstore_qresync v_fetch_modifier) p_fetch_modifiers.
Proof. unfold p_fetch_modifiers, p_fetch_modifier. apply ok_gated. oks. Qed.
Lemma ok_p_store_modifiers k : ok k (v_gated ext_condstore_qresync v_store_modifier) p_store_modifiers.
Proof. unfold p_store_modifiers. apply ok_gated. oks. Qed.
Lemma ok_p_macro_or_items k : ok k (v_macro_or_items lv) p_macro_or_items.
Proof. unfold p_macro_or_items. oks. Qed.
Hint Resolve ok_p_fetch_modifiers ok_p_store_modifiers ok_p_macro_or_items : okdb.
Lemma ok_p_fetch k : ok k v_uid_able p_fetch.
Proof. unfold p_fetch, v_uid_able. oks. Qed.
Lemma ok_p_store k : ok k v_uid_able p_store.
Proof.
  unfold p_store, v_uid_able, p_store_att_flags. nx x Hx. nx y Hy. nx s Hs. nx ms Hms. nx z Hz.
  apply (ok_bind k (fun t => forallb v_flag (snd t))).
  - nx t Ht. nx u Hu. nx r Hr. nx w Hw.
    apply (ok_bind k (forallb v_flag)).
    { apply ok_alt_cons; [oks |]. apply ok_alt_cons; [| oks]. ok_weak. }
    intros fl Hfl. now apply ok_ret.
  - intros [[t r] fl] Hfl. cbn [snd] in Hfl. apply ok_ret. cbn. now rewrite Hs, Hfl, Hms.
Qed.
Lemma ok_p_search_uid k : ok k v_uid_able p_search.
Proof. unfold p_search, v_uid_able. oks. Qed.
Lemma set_uid_ok c : v_uid_able c = true ->
  exists c', set_uid c = Some c' /\ v_command_body lv c' = true.
Proof.
  unfold v_uid_able. intros H. apply andb_true_iff in H as [H1 H2].
  destruct c; try discriminate; cbn in *; eauto.
Qed.
Lemma ok_p_uid k : ok k (v_command_body lv) p_uid.
Proof.
  unfold p_uid. nx x Hx. nx y Hy. apply (ok_expect k v_uid_able).
  - repeat (apply ok_alt_cons; [| ]); try apply ok_alt_nil;
      auto using ok_p_copy, ok_p_fetch, ok_p_search_uid, ok_p_store, ok_p_move.
  - apply set_uid_ok.
Qed.
Hint Resolve ok_p_uid ok_p_command_nonauth : okdb.
Lemma ok_p_command_select k : ok k (v_command_body lv) p_command_select.
Proof.
  unfold p_command_select.
  repeat (apply ok_alt_cons; [| ]); try solve [oks].
  1: apply (ok_weaken k _ _ _ (ok_p_copy k) uid_able).
  1: apply (ok_weaken k _ _ _ (ok_p_fetch k) uid_able).
  1: apply (ok_weaken k _ _ _ (ok_p_store k) uid_able).
  1: apply (ok_weaken k _ _ _ (ok_p_move k) uid_able).
Qed.
Hint Resolve ok_p_command_select : okdb.
Lemma ok_p_command_body k : ok k (v_command_body lv) p_command_body.
Proof. unfold p_command_body. oks. Qed.

Lemma ok_p_authenticate_data k : ok k any p_authenticate_data.
Proof.
  unfold p_authenticate_data. apply ok_alt_cons.
  - apply (ok_pmap k any); [oks | okv].
  - apply ok_alt_cons; oks.
Qed.
End OkCmd.

#[export] Hint Resolve ok_p_id ok_p_capability_enable ok_p_entry_values ok_p_resource_name
  ok_p_entries ok_p_auth_type ok_p_entry_value ok_p_id_params_list : okdb.
