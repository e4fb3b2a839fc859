(** Soundness of the parsers of ParseResp.v: data and response codes. *)

From Verif Require Import Bytes BytesFacts Dec Features Nom Types Utf8 Conv Base64 Date FragSpec
  ParseCore ParseBody ParseCmd ParseResp ParserFacts QuotedFacts OkCore ValueSpec ValueFacts Grammar
  SoundTac SoundCore SoundBody SoundCmd SoundCap.
Open Scope nat_scope.

Section SoundResp.
Context {F : features}.

Ltac snil := match goal with H : p_nil _ = ROk _ _ |- _ =>
  let t := fresh "t" in let G := fresh "N" in apply sound_nil in H as (t & H & G); subst end.
Lemma sound_delimiter : sound p_delimiter G_delimiter.
Proof.
  intros i r a H. unfold p_delimiter in H. apply alt_inv in H as [H | [_ H]].
  - sd. match goal with Q : p_quoted_char _ = _ |- _ => apply quoted_char_inv in Q as (w & -> & T & Q) end. sfin ltac:(apply g_delimiter, g_qc; eassumption).
  - sd. snil. sce.
Qed.
Hint Resolve sound_delimiter : soundb.
Lemma sound_namespace_ext : sound p_namespace_ext G_namespace_ext.
Proof. ssplit. unfold p_namespace_ext in H. sd. sce. Qed.
Hint Resolve sound_namespace_ext : soundb.
Lemma sound_namespace_descr : sound p_namespace_descr G_namespace_descr.
Proof. ssplit. unfold p_namespace_descr in H. sd. sce. Qed.
Hint Resolve sound_namespace_descr : soundb.
Lemma sound_namespace : sound p_namespace G_namespace.
Proof. ssplit. unfold p_namespace in H. sd; try snil; sce. Qed.
Hint Resolve sound_namespace : soundb.
Lemma many_sp_len t l : many (fun t (_ : byte) => t = bs " ") t l -> length t = length l.
Proof. induction 1 as [| t a u l -> _ IH]; [reflexivity |]. cbn. now rewrite IH. Qed.
Lemma sound_quota_sp : sound p_quota_sp (fun t _ => G_quota_space t).
Proof.
  intros i r a H. unfold p_quota_sp in H. destruct quirk_excessive_space_quota_resource eqn:Q.
  - sd. apply (sound_many1 sp (fun t _ => t = bs " ")) in H as (t & -> & M & N).
    + exists t. split; [reflexivity |]. right. split; [exact Q |]. split.
      * apply many_sp_len in M. intros ->. cbn in M. lia.
      * now apply many_sp in M.
    + intros j s b E. apply reads_sp in E as ->. eauto.
  - sd. exists (bs " "). split; [reflexivity | now left].
Qed.
Hint Resolve sound_quota_sp : soundb.
Lemma sound_quota_get : sound p_quota_resource G_quota_get.
Proof. ssplit. unfold p_quota_resource in H. sd. sfin ltac:(exact (g_quota_get _ _ _ _ _ _ _ _ G G0 G1 G2 G3)). Qed.
Hint Resolve sound_quota_get : soundb.
Lemma sound_thread_list n : sound (p_thread_list (S n)) (G_thread n).
Proof.
  induction n as [| n IH]; intros i r a H; cbn [p_thread_list] in H.
  - unfold delimited in H. apply bind_inv in H as (r1 & u & E & H). apply tag_inv in E as ->.
    apply bind_inv in H as (r2 & x & E & H).
    apply alt_inv in E as [E | [_ E]].
    + apply bind_inv in E as (r3 & l & E & E2). apply vecn_inv in E.
      eapply sound_use in E; [| s_auto]. destruct E as (t & -> & G).
      apply bind_inv in E2 as (r4 & o & E & E2). inv E2.
      apply opt_inv in E as [(y & -> & E) | (-> & -> & _)].
      * apply vecn_inv in E. apply bind_inv in E as (r5 & z & _ & E). discriminate E.
      * sd. sfin ltac:(apply g_thread_flat; eassumption).
    + apply alt_inv in E as [E | [_ E]]; [| discriminate E].
      apply pmap_inv in E as (y & E & ->). apply vecn_inv in E. discriminate E.
  - change (delimited (tg "(") (alt [(p <- vec1 (sep_list1 sp p_nz_number) ;;
             a <- opt (vec2 (sp ;;; many_m 2 (p_thread_list (S n)))) ;; ret (TMembers p a));
            pmap TNested (vec2 (many_m 2 (p_thread_list (S n))))]) (tg ")") i = ROk r a) in H.
    revert H IH. generalize (p_thread_list (S n)) as p. intros p H IH.
    unfold delimited in H. apply bind_inv in H as (r1 & u & E & H). apply tag_inv in E as ->.
    apply bind_inv in H as (r2 & x & E & H).
    apply alt_inv in E as [E | [_ E]].
    + apply bind_inv in E as (r3 & l & E & E2). apply vecn_inv in E.
      eapply sound_use in E; [| s_auto]. destruct E as (t & -> & G).
      apply bind_inv in E2 as (r4 & o & E & E2). inv E2.
      apply opt_inv in E as [(y & -> & E) | (-> & -> & _)].
      * apply vecn_inv in E. apply bind_inv in E as (r5 & z & E1 & E).
        apply reads_sp in E1 as ->. apply (sound_many_m 2 p _ IH) in E as (t' & -> & G').
        sd. sfin ltac:(apply g_thread_split; eassumption).
      * sd. sfin ltac:(apply g_thread_flat; eassumption).
    + apply alt_inv in E as [E | [_ E]]; [| discriminate E].
      apply pmap_inv in E as (y & E & ->). apply vecn_inv in E.
      apply (sound_many_m 2 p _ IH) in E as (t' & -> & G').
      sd. sfin ltac:(apply g_thread_nested; eassumption).
Qed.
Lemma sound_threads : sound (p_thread_list 8) (G_thread 7).
Proof. apply sound_thread_list. Qed.
Hint Resolve sound_threads : soundb.
Lemma sound_uid_set : sound p_uid_set G_uid_set.
Proof.
  assert (S : sound (alt [p_uid_range; pmap UESingle p_nz_number]) G_uid_element).
  { ssplit; [unfold p_uid_range in H; sd |]; sce. }
  unfold p_uid_set, G_uid_set. s_auto.
Qed.
Hint Resolve sound_uid_set : soundb.
Lemma sound_flag_names : sound p_mbx_list_flags (sep_by (bs " ") G_flag_name).
Proof. unfold p_mbx_list_flags. pose proof sound_flag_name. s_auto. Qed.
Hint Resolve sound_flag_names : soundb.
Lemma opt_names t o : optional (sep_by (bs " ") G_flag_name) t o -> list_of (bs " ") G_flag_name t (dflt o).
Proof. intros H. inversion H; subst; constructor; assumption. Qed.
Lemma sound_mailbox_list w (f : list flag_name_attribute -> option byte -> mailbox -> data) :
  sound (tag_no_case w ;;; ' (fl, d, m) <- p_mailbox_list ;; ret (f fl d m)) (G_mailbox_list w f).
Proof.
  intros i r a H. apply bind_inv in H as (r1 & u & E & H). apply kw_inv in E as (k & -> & K).
  apply bind_inv in H as (r2 & ((fl & d) & m) & E & H). inv H. unfold p_mailbox_list in E.
  apply bind_inv in E as (r3 & o & E1 & E). eapply sound_use in E1; [| s_auto].
  destruct E1 as (t & -> & G). inversion G; subst. sd.
  sfin ltac:(exists k; do 6 eexists; split; [exact K |]; split; [constructor; eapply opt_names; eassumption |];
    repeat split; eassumption).
Qed.
Lemma sound_nums : sound p_nums (many (after (bs " ") G_nz_number)).
Proof. unfold p_nums. s_auto. Qed.
Lemma sound_modseq : sound p_opt_modseq G_modseq_result.
Proof.
  intros i r a H. unfold p_opt_modseq in H. destruct ext_condstore_qresync eqn:E.
  - unfold p_search_sort_mod_seq in H. sd; [| exists []; split; [reflexivity | constructor]].
    sfin ltac:(eapply g_modseq; eassumption).
  - inv H. exists []. split; [reflexivity | constructor].
Qed.
Lemma sound_opt_sp q : sound (p_opt_sp q) (fun t _ => stray_space q t).
Proof.
  intros i r a H. unfold p_opt_sp in H. destruct q; sd.
  - exists (bs " "). split; [reflexivity | right; auto].
  - exists []. split; [reflexivity | now left].
  - exists []. split; [reflexivity | now left].
Qed.
Hint Resolve sound_nums sound_modseq sound_opt_sp : soundb.
Lemma sound_capabilities : sound p_capability_data G_capabilities.
Proof. ssplit. unfold p_capability_data in H. sd. sce. Qed.
Hint Resolve sound_capabilities : soundb.
Lemma opt_vals t o : optional (sep_by (bs " ") G_status_val) t o -> list_of (bs " ") G_status_val t (dflt o).
Proof. intros H. inversion H; subst; constructor; assumption. Qed.
Lemma sound_status_vals : sound p_status_att_list (sep_by (bs " ") G_status_val).
Proof. unfold p_status_att_list. s_auto. Qed.
Hint Resolve sound_status_vals : soundb.
Lemma sound_mailbox_data : sound p_mailbox_data G_data.
Proof.
  intros i r a H. unfold p_mailbox_data, p_thread_data, p_metadata_resp, p_namespace_response, p_quotaroot_response,
    p_quota_response in H.
  repeat (apply alt_inv in H as [H | [_ H]]); [.. | discriminate H].
  - sd. sce.
  - apply sound_mailbox_list in H as (t & -> & G). exists t. split; [reflexivity | now apply g_data_list].
  - apply sound_mailbox_list in H as (t & -> & G). exists t. split; [reflexivity | now apply g_data_lsub].
  - sd. sfin ltac:(eapply g_data_search; eassumption).
  - sd. sfin ltac:(eapply g_data_sort; eassumption).
  - sd. inversion G as [| u l G']; subst.
    + exists k. split; [reflexivity |]. now apply g_data_thread_none.
    + inversion G'; subst. exists ((k ++ bs " ") ++ t0). split; [now rewrite <- !app_assoc |].
      apply g_data_thread; [now apply (letters_sp k (bs "THREAD")) | assumption].
  - sd.
    sfin ltac:(eapply g_data_status; [eassumption | eassumption | constructor; apply opt_vals; eassumption | eassumption]).
  - sd. + exists ((k ++ bs " ") ++ t ++ bs " " ++ t0). split; [now rewrite <- !app_assoc |].
      apply g_data_metadata_values; try assumption. now apply (letters_sp k (bs "METADATA")).
    + exists ((k ++ bs " ") ++ t ++ bs " " ++ t0). split; [now rewrite <- !app_assoc |].
      apply g_data_metadata; try assumption. now apply (letters_sp k (bs "METADATA")).
  - sd. sfin ltac:(eapply g_data_namespace; eassumption).
  - sd. sfin ltac:(eapply g_data_exists; eassumption).
  - sd. sfin ltac:(eapply g_data_recent; eassumption).
  - sd. sfin ltac:(eapply g_data_quotaroot; eassumption).
  - sd. sfin ltac:(eapply g_data_quota; [eassumption | eassumption | constructor; eassumption]).
Qed.
Lemma sound_message_data : sound p_message_data G_data.
Proof.
  intros i r a H. unfold p_message_data in H.
  repeat (apply alt_inv in H as [H | [_ H]]); [.. | discriminate H].
  - sd.
    + exists (t ++ bs " " ++ k). split; [now rewrite <- !app_assoc |].
      apply g_data_expunge; [assumption |]. apply (letters_app (bs " ") k (bs " ") (bs "EXPUNGE")); [apply letters_refl | assumption].
    + exists (t ++ (bs " " ++ k) ++ t0). split; [now rewrite <- !app_assoc |].
      apply g_data_fetch; try assumption. apply (letters_app (bs " ") k (bs " ") (bs "FETCH ")); [apply letters_refl | assumption].
  - sd; cbn [is_some].
    + exists ((k ++ k0) ++ bs " " ++ t). split; [now rewrite <- !app_assoc |].
      apply g_data_vanished_earlier; try assumption. now apply (letters_app k k0 (bs "VANISHED") (bs " (EARLIER)")).
    + exists (k ++ bs " " ++ t). split; [now rewrite <- !app_assoc |]. now apply g_data_vanished.
Qed.
Lemma code_word s t c : In (s, c) code_words -> same_letters t s -> G_known_code t c.
Proof. intros. apply g_code_word. econstructor; eassumption. Qed.
Lemma code_number s k t n L f : In (s, (L, f)) code_numbers -> same_letters k s -> L t n -> G_known_code (k ++ t) (f n).
Proof. intros. eapply g_code_number; [econstructor; eassumption | assumption]. Qed.
Lemma opt_perms t o : optional (sep_by (bs " ") G_flag_perm) t o -> list_of (bs " ") G_flag_perm t (dflt o).
Proof. intros H. inversion H; subst; constructor; assumption. Qed.
Ltac intab := unfold code_words, code_numbers; rewrite ?in_app_iff; unfold when;
  repeat match goal with E : ?b = true |- _ => rewrite E; clear E end; cbn [In]; tauto.
Ltac cdw := eapply code_word; [| eassumption]; intab.
Ltac cdn := eapply code_number; [| eassumption | eassumption]; intab.
Lemma sound_resp_text_code : sound p_resp_text_code G_known_code.
Proof.
  intros i r a H. unfold p_resp_text_code, p_metadata_code, p_resp_code_apnd, p_resp_code_copy in H.
  repeat (apply alt_inv in H as [H | [_ H]]); [.. | discriminate H].
  - sd. sfin cdw.
  - (* BADCHARSET *)
    apply bind_inv in H as (r1 & u & E & H). apply kw_inv in E as (k & -> & K).
    apply bind_inv in H as (r2 & o & E & H). inv H. apply opt_inv in E as [(l & -> & E) | (-> & -> & _)].
    + sd. cbn [dflt]. exists ((k ++ bs " ") ++ bs "(" ++ t ++ bs ")"). split; [now rewrite <- !app_assoc |].
      apply g_code_badcharset; [now apply (letters_sp k (bs "BADCHARSET")) | now constructor].
    + cbn [dflt]. sfin cdw.
  - sd. sfin ltac:(apply g_code_capability; eassumption).
  - sd. sfin cdw.
  - (* PERMANENTFLAGS *)
    sd. inversion G; subst. sfin ltac:(apply g_code_permanentflags; [eassumption | constructor; apply opt_perms; eassumption]).
  - sd. sfin cdw.
  - sd. sfin cdw.
  - sd. sfin cdw.
  - sd. sfin cdn.
  - sd. sfin cdn.
  - sd. sfin cdn.
  - sd. sfin cdw.
  - sd. sfin cdw.
  - sd. sfin cdw.
  - (* METADATA *)
    apply gate_inv in H as [Gate H]. apply pmap_inv in H as (x & H & ->).
    apply bind_inv in H as (r1 & u & E & H). apply kw_inv in E as (k & -> & K).
    repeat (apply alt_inv in H as [H | [_ H]]); [.. | discriminate H].
    + sd. exists ((k ++ k0) ++ t). split; [now rewrite <- !app_assoc |].
      eapply (code_number (bs "METADATA LONGENTRIES ") _ _ _ G_number (fun n => CdMetadata (MCLongEntries n)));
        [| now apply (letters_app k k0 (bs "METADATA ") (bs "LONGENTRIES ")) | assumption]. intab.
    + sd. exists ((k ++ k0) ++ t). split; [now rewrite <- !app_assoc |].
      eapply (code_number (bs "METADATA MAXSIZE ") _ _ _ G_number (fun n => CdMetadata (MCMaxSize n)));
        [| now apply (letters_app k k0 (bs "METADATA ") (bs "MAXSIZE ")) | assumption]. intab.
    + sd. exists (k ++ k0). split; [now rewrite <- !app_assoc |].
      eapply (code_word (bs "METADATA TOOMANY"));
        [| now apply (letters_app k k0 (bs "METADATA ") (bs "TOOMANY"))]. intab.
    + sd. exists (k ++ k0). split; [now rewrite <- !app_assoc |].
      eapply (code_word (bs "METADATA NOPRIVATE"));
        [| now apply (letters_app k k0 (bs "METADATA ") (bs "NOPRIVATE"))]. intab.
  - sd. sfin cdw.
  - sd. sfin ltac:(apply g_code_appenduid; eassumption).
  - sd. sfin ltac:(apply g_code_copyuid; eassumption).
  - sd. sfin cdw.
  - (* CONDSTORE *)
    apply gate_inv in H as [Gate H].
    repeat (apply alt_inv in H as [H | [_ H]]); [.. | discriminate H]; sd.
    + sfin cdn.
    + sfin cdw.
    + sfin ltac:(apply g_code_modified; eassumption).
    + sfin cdw.
Qed.
End SoundResp.
#[export] Hint Resolve sound_delimiter sound_namespace sound_quota_get sound_threads sound_uid_set
  sound_capabilities sound_mailbox_data sound_message_data sound_resp_text_code : soundb.
