(** Soundness of the parsers of ParseCmd.v. *)

From Verif Require Import Bytes BytesFacts Dec Features Nom Types Utf8 Conv Base64 Date FragSpec
  ParseCore ParseBody ParseCmd ParserFacts QuotedFacts OkCore ValueSpec ValueFacts Grammar
  SoundTac SoundCore SoundBody.
Open Scope nat_scope.

Section SoundCmd.
Context {F : features}.

Lemma letters_app k k' a b : same_letters k a -> same_letters k' b -> same_letters (k ++ k') (a ++ b).
Proof. apply Forall2_app. Qed.
Lemma letters_refl s : same_letters s s.
Proof. now apply same_letters_spec. Qed.
Lemma letters_sp k s : same_letters k s -> same_letters (k ++ bs " ") (s ++ bs " ").
Proof. intros H. apply letters_app; [assumption | apply letters_refl]. Qed.

Lemma sound_id_param : sound p_id_param G_id_param.
Proof. ssplit. unfold p_id_param in H. sd. sce. Qed.
Hint Resolve sound_id_param : soundb.
Lemma sound_id_params : sound p_id_params_list G_id_params.
Proof.
  intros i r a H. unfold p_id_params_list in H. apply alt_inv in H as [H | [_ H]].
  - apply pmap_inv in H as (x & H & ->). unfold delimited in H.
    apply bind_inv in H as (r1 & u & E & H). apply tag_inv in E as ->.
    apply bind_inv in H as (r2 & l & E & H).
    assert (X : exists t e, r1 = t ++ e ++ r2 /\ list_of (bs " ") G_id_param t l /\
      (e = [] \/ (quirk_trailing_space_id = true /\ e = bs " "))).
    { destruct quirk_trailing_space_id.
      - sd; [exists t, (bs " ") | exists t, []]; auto.
      - sd. exists t, []. auto. }
    destruct X as (t & e & -> & G & X). clear E. sd.
    sfin ltac:(eapply g_id_list; eassumption).
  - apply alt_inv in H as [H | [_ H]]; [| discriminate H]. apply value_inv in H as (u & H & ->).
    apply kw_inv in H as (k & -> & K). exists k. split; [reflexivity | now constructor].
Qed.
Hint Resolve sound_id_params : soundb.
Lemma sound_id : sound (pmap CId p_id) (fun t c => exists k u p, t = k ++ u /\ k ~ "ID " /\ G_id_params u p /\ c = CId p).
Proof. ssplit. unfold p_id in H. sd. sfin ltac:(exists k, t, x; auto). Qed.

Lemma sound_capability_enable : sound p_capability_enable G_enable_name.
Proof. exact sound_enable_name. Qed.
Lemma sound_resource : sound p_resource_name G_resource.
Proof. apply sound_name. exact resource_table_ok. Qed.
Lemma sound_auth_type : sound p_auth_type G_auth_type.
Proof. apply sound_name. exact auth_table_ok. Qed.
Lemma sound_thread_alg : sound (pmap threading_algorithm_from p_atom) G_thread_alg.
Proof. apply sound_name. exact thread_table_ok. Qed.
Hint Resolve sound_capability_enable sound_resource sound_auth_type sound_thread_alg : soundb.
Lemma sound_quota_set : sound p_setquota_resource G_quota_set.
Proof. ssplit. unfold p_setquota_resource in H. sd. sce. Qed.
Hint Resolve sound_quota_set : soundb.
Lemma sound_entry_value : sound p_entry_value G_entry_value.
Proof. ssplit. unfold p_entry_value in H. sd. sce. Qed.
Hint Resolve sound_entry_value : soundb.
Lemma sound_entry_values : sound p_entry_values G_entry_values.
Proof. unfold p_entry_values, G_entry_values. s_auto. Qed.
Hint Resolve sound_entry_values : soundb.
Lemma sound_getmetadata_option : sound p_getmetadata_option G_getmetadata_option.
Proof.
  ssplit. unfold p_getmetadata_option in H. sd.
  - sce.
  - sfin ltac:(eapply g_gm_depth; [eassumption |]).
    apply (word_intro _ _ (bs "0")); [in_table | apply letters_refl].
  - sfin ltac:(eapply g_gm_depth; [eassumption |]).
    apply (word_intro _ _ (bs "1")); [in_table | apply letters_refl].
  - sfin ltac:(eapply g_gm_depth; [eassumption | sword]).
Qed.
Hint Resolve sound_getmetadata_option : soundb.
Lemma sound_entries : sound p_entries G_entries.
Proof. ssplit. unfold p_entries in H. sd; sce. Qed.
Hint Resolve sound_entries : soundb.
Lemma sound_sort_key : sound p_sort_key (word sort_key_table).
Proof. ssplit. unfold p_sort_key in H. sd; sfin sword. Qed.
Hint Resolve sound_sort_key : soundb.
Lemma sound_sort_criterion : sound p_sort_criterion G_sort_criterion.
Proof. ssplit. unfold p_sort_criterion in H. sd; cbn [is_some]; sce. Qed.
Hint Resolve sound_sort_criterion : soundb.
Lemma sound_sort_criteria : sound p_sort_criteria (in_parens (sep_by (bs " ") G_sort_criterion)).
Proof. unfold p_sort_criteria. s_auto. Qed.
Hint Resolve sound_sort_criteria : soundb.
Definition p_known_uids : parser (sequence_set * sequence_set) :=
  delimited (char "("%byte) (a <- p_sequence_set ;; sp ;;; b <- p_sequence_set ;; ret (a, b)) (char ")"%byte).
Lemma sound_known_uids : sound p_known_uids G_known_uids.
Proof. ssplit. unfold p_known_uids in H. sd. sce. Qed.
Lemma sound_select_param : sound p_select_param G_select_param.
Proof.
  ssplit. unfold p_select_param in H.
  change (delimited (char "("%byte) (a <- p_sequence_set ;; sp ;;; b <- p_sequence_set ;; ret (a, b)) (char ")"%byte))
    with p_known_uids in H.
  pose proof sound_known_uids. sd; sce.
Qed.
Hint Resolve sound_select_param : soundb.
Lemma sound_condstore {A} (p : parser (list A)) L : sound p (opt_list L) ->
  sound (if ext_condstore_qresync then p else ret []) (condstore_list L).
Proof.
  intros S i r a H. unfold condstore_list. destruct ext_condstore_qresync.
  - apply S in H as (t & -> & G). exists t. auto.
  - inv H. exists []. auto.
Qed.
Lemma sound_select_params : sound p_select_params (condstore_list G_select_param).
Proof. unfold p_select_params. apply sound_condstore. s_auto. Qed.
Lemma sound_fetch_modifier : sound p_fetch_modifier G_fetch_modifier.
Proof. ssplit. unfold p_fetch_modifier in H. sd; sce. Qed.
Hint Resolve sound_select_params sound_fetch_modifier : soundb.
Lemma sound_fetch_modifiers : sound p_fetch_modifiers (condstore_list G_fetch_modifier).
Proof. unfold p_fetch_modifiers. apply sound_condstore. s_auto. Qed.
Lemma sound_store_modifier :
  sound (pmap SMUnchangedSince (kw "UNCHANGEDSINCE " ;;; p_mod_sequence_valzer)) G_store_modifier.
Proof. ssplit. sd; sce. Qed.
Hint Resolve sound_fetch_modifiers sound_store_modifier : soundb.
Lemma sound_store_modifiers : sound p_store_modifiers (condstore_list G_store_modifier).
Proof. unfold p_store_modifiers. apply sound_condstore. s_auto. Qed.
Hint Resolve sound_store_modifiers : soundb.
Lemma sound_macro_or_items : sound p_macro_or_items G_macro_or_items.
Proof.
  ssplit. unfold p_macro_or_items in H.
  assert (W : forall s k v, In (s, v) macro_table -> same_letters k s -> G_macro_or_items k (MIMacro v)).
  { intros. apply g_macro. econstructor; eassumption. }
  unfold macro_table in W. sd;
  first [sfin ltac:(eapply W; [in_table | eassumption]) | clear W; sce].
Qed.
Hint Resolve sound_macro_or_items : soundb.

(** Commands *)
Lemma cmd_word s t c : In (s, c) command_words -> same_letters t s -> G_command_body t c.
Proof. intros. apply g_cmd_word. econstructor; eassumption. Qed.
Lemma cmd_mailbox s k f t m : In (s, f) command_mailbox -> same_letters k s -> G_mailbox t m ->
  G_command_body (k ++ t) (f m).
Proof. intros. apply g_cmd_mailbox; [econstructor; eassumption | assumption]. Qed.
Ltac cword := eapply cmd_word; [in_table | eassumption].
Ltac cmbx := eapply cmd_mailbox; [in_table | eassumption | eassumption].
Lemma sound_command_any : sound p_command_any G_command_body.
Proof.
  intros i r a H. unfold p_command_any in H. sd; try (sfin cword).
  unfold p_id in H. sd. sfin ltac:(eapply g_cmd_id; eassumption).
Qed.
Lemma sp_to_sep_by {A} (L : lang A) t l : at_least 1 (after (bs " ") L) t l ->
  exists u, t = bs " " ++ u /\ sep_by (bs " ") L u l.
Proof.
  intros [M N]. destruct M as [| t a u l G M]; [cbn in N; lia |].
  inversion G as [v b G2]; subst. exists (v ++ u). rewrite <- app_assoc. split; [reflexivity |].
  now apply sep_by_many.
Qed.
Lemma in_parens_list {A} (p : parser A) L : sound p L ->
  sound (delimited (tg " (") (sep_list0 sp p) (tg ")"))
    (fun t l => exists u, t = bs " " ++ u /\ in_parens (list_of (bs " ") L) u l).
Proof.
  intros S i r a H. unfold delimited in H. apply bind_inv in H as (r1 & u & E & H).
  apply tag_inv in E as ->. apply bind_inv in H as (r2 & l & E & H).
  apply (sound_sep0 p L sp (bs " ") S reads_sp) in E as (t & -> & G).
  sd. exists (bs " " ++ bs "(" ++ t ++ bs ")"). split; [now rewrite <- !app_assoc |].
  eexists. split; [reflexivity | now constructor].
Qed.
Lemma opt_flags t o : optional (after (bs " ") G_flag_list) t o -> G_opt_flags t (dflt o).
Proof. intros H. inversion H; subst; [left; auto | right; assumption]. Qed.
Lemma sound_metadata_options : sound p_getmetadata_options (in_parens (sep_by (bs " ") G_getmetadata_option)).
Proof. unfold p_getmetadata_options. s_auto. Qed.
Lemma opt_options {A} (L : lang A) t o : optional (after (bs " ") (in_parens (sep_by (bs " ") L))) t o ->
  opt_list L t (dflt o).
Proof.
  intros H. inversion H as [| u x G]; subst; [constructor |]. inversion G; subst. now constructor.
Qed.
Lemma sound_initial : sound (alt [p_base64; value [] (tg "=")])
  (fun t p => G_base64 t p \/ (t = bs "=" /\ p = [])).
Proof. ssplit; [exists t; auto | exists (bs "="); auto]. Qed.
Lemma sound_command_auth : sound p_command_auth G_command_body.
Proof.
  intros i r a H. unfold p_command_auth in H.
  unfold p_append, p_create, p_delete, p_examine, p_list, p_lsub, p_rename, p_select, p_status,
       p_subscribe, p_unsubscribe, p_idle, p_enable, p_compress, p_getquota, p_getquotaroot,
       p_setquota, p_setmetadata, p_getmetadata, p_namespace_command in H.
  repeat (apply alt_inv in H as [H | [_ H]]); [.. | discriminate H].
  all: try (solve [sd; sfin cmbx]).
  all: try (solve [sd; sfin cword]).
  - (* APPEND *)
    sd; (sfin ltac:(eapply g_cmd_append; [eassumption | eassumption | apply opt_flags; eassumption |
      eassumption | econstructor; eassumption])).
  - (* EXAMINE *) sd. sfin ltac:(eapply g_cmd_examine; eassumption).
  - (* LIST *) sd. sfin ltac:(eapply g_cmd_list; eassumption).
  - (* LSUB *) sd. sfin ltac:(eapply g_cmd_lsub; eassumption).
  - (* RENAME *) sd. sfin ltac:(eapply g_cmd_rename; eassumption).
  - (* SELECT *) sd. sfin ltac:(eapply g_cmd_select; eassumption).
  - (* STATUS *)
    pose proof (in_parens_list _ _ sound_status_att). sd. destruct G0 as (u & -> & G0).
    sfin ltac:(eapply g_cmd_status; eassumption).
  - (* ENABLE *)
    sd. apply sp_to_sep_by in G as (u & -> & G).
    exists ((k ++ bs " ") ++ u). split; [now rewrite <- !app_assoc |].
    apply g_cmd_enable; [now apply (letters_sp k (bs "ENABLE")) | assumption].
  - (* COMPRESS *) sd. sfin ltac:(eapply g_cmd_compress; eassumption).
  - (* GETQUOTA *) sd. sfin ltac:(eapply g_cmd_getquota; eassumption).
  - (* SETQUOTA *)
    pose proof (in_parens_list _ _ sound_quota_set). sd. destruct G0 as (u & -> & G0).
    sfin ltac:(eapply g_cmd_setquota; eassumption).
  - (* SETMETADATA *)
    sd. exists ((k ++ bs " ") ++ t ++ bs " " ++ t0). split; [now rewrite <- !app_assoc |].
    apply g_cmd_setmetadata; try assumption. now apply (letters_sp k (bs "SETMETADATA")).
  - (* GETMETADATA *)
    pose proof sound_metadata_options.
    sd. sfin ltac:(eapply g_cmd_getmetadata; [assumption | eassumption | apply opt_options; eassumption |
      eassumption | eassumption]).
  - (* NAMESPACE *)
    sd. sfin ltac:(eapply (cmd_word (bs "NAMESPACE")); [| eassumption]).
    unfold command_words. rewrite Gate. in_table.
Qed.
Lemma sound_command_nonauth : sound p_command_nonauth G_command_body.
Proof.
  intros i r a H. unfold p_command_nonauth in H.
  repeat (apply alt_inv in H as [H | [_ H]]); [.. | discriminate H].
  - unfold p_login in H. sd. exists ((k ++ bs " ") ++ t ++ bs " " ++ t0).
    split; [now rewrite <- !app_assoc |].
    apply g_cmd_login; try assumption. now apply (letters_sp k (bs "LOGIN")).
  - unfold p_authenticate in H. pose proof sound_initial. sd. inversion G0 as [| u x G1]; subst.
    + sfin ltac:(eapply g_cmd_authenticate; eassumption).
    + inversion G1; subst. sfin ltac:(eapply g_cmd_authenticate_ir; eassumption).
  - sd. sfin ltac:(eapply (cmd_word (bs "STARTTLS")); [| eassumption]).
    unfold command_words. apply in_or_app. right. apply in_or_app. right. rewrite Gate. now left.
Qed.

(** The commands with a UID form *)
Inductive G_uidable (uid : bool) : lang command_body :=
| gu_copy k ts s tm m : k ~ "COPY " -> G_sequence_set ts s -> G_mailbox tm m ->
    G_uidable uid (k ++ ts ++ bs " " ++ tm) (CCopy s m uid)
| gu_move k ts s tm m : k ~ "MOVE " -> G_sequence_set ts s -> G_mailbox tm m ->
    G_uidable uid (k ++ ts ++ bs " " ++ tm) (CMove s m uid)
| gu_fetch k ts s ti i t ms : k ~ "FETCH " -> G_sequence_set ts s ->
    G_macro_or_items ti i -> condstore_list G_fetch_modifier t ms ->
    G_uidable uid (k ++ ts ++ bs " " ++ ti ++ t) (CFetch s i uid ms)
| gu_store k ts s tm ms tk kind kf tr r t fl : k ~ "STORE " ->
    G_sequence_set ts s -> condstore_list G_store_modifier tm ms -> G_store_type tk kind ->
    kf ~ "FLAGS" -> G_silent tr r -> G_store_flags t fl ->
    G_uidable uid (k ++ ts ++ tm ++ bs " " ++ tk ++ kf ++ tr ++ bs " " ++ t)
      (CStore s kind r fl uid ms)
| gu_search k t l : k ~ "SEARCH " -> G_search_keys t l ->
    G_uidable uid (k ++ t) (CSearch None l uid)
| gu_search_charset k tc c t l : k ~ "SEARCH CHARSET " -> G_charset tc c ->
    G_search_keys t l -> G_uidable uid (k ++ tc ++ bs " " ++ t) (CSearch (Some c) l uid).
Lemma uidable_command u uid t c : G_uid u uid -> G_uidable uid t c -> G_command_body (u ++ t) c.
Proof. intros U G. destruct G; econstructor; eassumption. Qed.
Lemma uidable_set t c d : G_uidable false t c -> set_uid c = Some d -> G_uidable true t d.
Proof. intros G E. destruct G; injection E as <-; econstructor; eassumption. Qed.
Lemma sound_copy : sound p_copy (G_uidable false).
Proof.
  ssplit. unfold p_copy in H. sd. exists ((k ++ bs " ") ++ t ++ bs " " ++ t0).
  split; [now rewrite <- !app_assoc |]. apply gu_copy; try assumption. now apply (letters_sp k (bs "COPY")).
Qed.
Lemma sound_move : sound p_move (G_uidable false).
Proof.
  ssplit. unfold p_move in H. sd. exists ((k ++ bs " ") ++ t ++ bs " " ++ t0).
  split; [now rewrite <- !app_assoc |]. apply gu_move; try assumption. now apply (letters_sp k (bs "MOVE")).
Qed.
Lemma sound_fetch : sound p_fetch (G_uidable false).
Proof.
  ssplit. unfold p_fetch in H. sd. exists ((k ++ bs " ") ++ t ++ bs " " ++ t0 ++ t1).
  split; [now rewrite <- !app_assoc |]. apply gu_fetch; try assumption. now apply (letters_sp k (bs "FETCH")).
Qed.
Lemma sound_search : sound p_search (G_uidable false).
Proof.
  ssplit. unfold p_search in H. sd.
  - inversion G0 as [u y G1]; subst.
    exists ((k ++ bs " " ++ k0 ++ bs " ") ++ u ++ bs " " ++ t).
    split; [now rewrite <- !app_assoc |]. apply gu_search_charset; try assumption.
    apply (letters_app _ _ (bs "SEARCH") (bs " CHARSET ")); [assumption |].
    apply (letters_app (bs " ") _ (bs " ") (bs "CHARSET ")); [apply letters_refl |].
    now apply (letters_sp k0 (bs "CHARSET")).
  - exists ((k ++ bs " ") ++ t). split; [now rewrite <- !app_assoc |].
    apply gu_search; [| assumption]. now apply (letters_sp k (bs "SEARCH")).
Qed.
Lemma sound_store : sound p_store (G_uidable false).
Proof.
  ssplit. unfold p_store in H. apply bind_inv in H as (r1 & u & E & H). apply kw_inv in E as (k & -> & K).
  apply bind_inv in H as (r2 & u2 & E & H). apply reads_sp in E as ->.
  apply bind_inv in H as (r3 & s & E & H). apply sound_sequence_set in E as (ts & -> & Gs).
  apply bind_inv in H as (r4 & ms & E & H). apply sound_store_modifiers in E as (tm & -> & Gm).
  apply bind_inv in H as (r5 & u5 & E & H). apply reads_sp in E as ->.
  apply bind_inv in H as (r6 & [[ty re] fl] & E & H). inv H. unfold p_store_att_flags in E.
  apply bind_inv in E as (r7 & o & E & H).
  assert (O : exists tk, r5 = tk ++ r7 /\
    G_store_type tk (match o with Some t => t | None => STReplace end)).
  { clear H. sd; [exists (bs "+") | exists (bs "-") | exists []]; (split; [reflexivity | constructor]). }
  destruct O as (tk & -> & Gk). clear E.
  apply bind_inv in H as (r8 & u8 & E & H). apply kw_inv in E as (kf & -> & Kf).
  apply bind_inv in H as (r9 & q & E & H).
  assert (O : exists tr, r8 = tr ++ r9 /\
    G_silent tr (match q with Some _ => SRSilent | None => SRAnswer end)).
  { clear H. sd; [exists k0 | exists []]; (split; [reflexivity | now constructor]). }
  destruct O as (tr & -> & Gr). clear E.
  apply bind_inv in H as (r10 & u10 & E & H). apply reads_sp in E as ->.
  apply bind_inv in H as (r11 & l & E & H).
  assert (O : exists tf, r10 = tf ++ r11 /\ G_store_flags tf l).
  { clear H. sd; exists t; (split; [reflexivity |]); [now apply g_sf_list | now apply g_sf_plain]. }
  destruct O as (tf & -> & Gf). clear E. inv H.
  exists ((k ++ bs " ") ++ ts ++ tm ++ bs " " ++ tk ++ kf ++ tr ++ bs " " ++ tf).
  split; [now rewrite <- !app_assoc |]. apply gu_store; try assumption.
  now apply (letters_sp k (bs "STORE")).
Qed.
Hint Resolve sound_copy sound_move sound_fetch sound_search sound_store : soundb.
Lemma sound_uid : sound p_uid G_command_body.
Proof.
  ssplit. unfold p_uid in H. apply bind_inv in H as (r1 & u & E & H). apply kw_inv in E as (k & -> & K).
  apply bind_inv in H as (r2 & u2 & E & H). apply reads_sp in E as ->.
  apply expect_inv in H as (c & H & E).
  assert (S : sound (alt [p_copy; p_fetch; p_search; p_store; p_move]) (G_uidable false))
    by (apply sound_alt; repeat constructor; eauto with soundb nocore).
  apply S in H as (t & -> & G). apply (uidable_set _ _ _ G) in E.
  exists ((k ++ bs " ") ++ t). split; [now rewrite <- !app_assoc |].
  eapply uidable_command; [| eassumption]. apply g_uid. now apply (letters_sp k (bs "UID")).
Qed.
Lemma uid_of i r o : opt (kw "UID ") i = ROk r o -> exists t, i = t ++ r /\ G_uid t (is_some o).
Proof.
  intros H. sd; [exists k | exists []]; (split; [reflexivity |]); cbn; constructor; assumption.
Qed.
Lemma sound_sort : sound p_sort G_command_body.
Proof.
  ssplit. unfold p_sort in H. apply bind_inv in H as (r1 & o & E & H). apply uid_of in E as (u & -> & U).
  apply bind_inv in H as (r2 & u2 & E & H). apply kw_inv in E as (k & -> & K).
  apply bind_inv in H as (r3 & sc & E & H). apply sound_sort_criteria in E as (ts & -> & Gs).
  apply bind_inv in H as (r4 & u4 & E & H). apply reads_sp in E as ->.
  apply bind_inv in H as (r5 & [c l] & E & H). apply sound_search_criteria in E as (tc & t & -> & Gc & Gl).
  inv H. sfin ltac:(eapply g_cmd_sort; eassumption).
Qed.
Lemma sound_thread : sound p_thread G_command_body.
Proof.
  ssplit. unfold p_thread in H. apply bind_inv in H as (r1 & o & E & H). apply uid_of in E as (u & -> & U).
  apply bind_inv in H as (r2 & u2 & E & H). apply kw_inv in E as (k & -> & K).
  apply bind_inv in H as (r3 & sc & E & H). apply sound_thread_alg in E as (ts & -> & Gs).
  apply bind_inv in H as (r4 & u4 & E & H). apply reads_sp in E as ->.
  apply bind_inv in H as (r5 & [c l] & E & H). apply sound_search_criteria in E as (tc & t & -> & Gc & Gl).
  inv H. sfin ltac:(eapply g_cmd_thread; eassumption).
Qed.
Lemma uidable_plain p : sound p (G_uidable false) -> sound p G_command_body.
Proof.
  intros S i r a H. apply S in H as (t & -> & G). exists t. split; [reflexivity |].
  apply (uidable_command [] false); [constructor | assumption].
Qed.
Lemma sound_command_select : sound p_command_select G_command_body.
Proof.
  intros i r a H. unfold p_command_select in H.
  repeat (apply alt_inv in H as [H | [_ H]]); [.. | discriminate H].
  all: try (solve [sd; sfin cword]).
  - unfold p_uid_expunge in H. sd. sfin ltac:(eapply g_cmd_expunge_uid; eassumption).
  - exact (uidable_plain _ sound_copy _ _ _ H).
  - exact (uidable_plain _ sound_fetch _ _ _ H).
  - exact (uidable_plain _ sound_store _ _ _ H).
  - exact (sound_uid _ _ _ H).
  - exact (uidable_plain _ sound_search _ _ _ H).
  - exact (sound_sort _ _ _ H).
  - exact (sound_thread _ _ _ H).
  - exact (uidable_plain _ sound_move _ _ _ H).
Qed.
Lemma sound_command_body : sound (alt [p_command_any; p_command_auth; p_command_nonauth; p_command_select])
  G_command_body.
Proof.
  apply sound_alt. repeat constructor.
  - exact sound_command_any.
  - exact sound_command_auth.
  - exact sound_command_nonauth.
  - exact sound_command_select.
Qed.
Lemma sound_command : sound p_command G_command.
Proof.
  intros i r a H. unfold p_command in H. apply bind_inv in H as (r1 & t & E & H).
  assert (H' : pmap (mkCommand t) p_command_body r1 = ROk r a).
  { destruct (pmap (mkCommand t) p_command_body r1) as [r' a' | | | f |];
      try discriminate H; [exact H | destruct f; discriminate H]. }
  clear H. unfold p_command_body in H'. pose proof sound_command_body. sd. match goal with G : G_tag _ _ |- _ => destruct G as [V ->] end.
  sfin ltac:(eapply g_command; [split; [eassumption | reflexivity] | eassumption | eassumption]).
Qed.
Lemma sound_authenticate_data : sound p_authenticate_data G_authenticate_data.
Proof. ssplit. unfold p_authenticate_data in H. sd; sce. Qed.
Lemma sound_idle_done : sound p_idle_done G_idle_done.
Proof. ssplit. unfold p_idle_done in H. sd. sce. Qed.
End SoundCmd.

#[export] Hint Resolve sound_id_params sound_capability_enable sound_resource sound_entry_values : soundb.
