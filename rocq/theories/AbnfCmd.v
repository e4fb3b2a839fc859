(** The rules of AbnfSpec.v and the relations of Grammar.v: commands. *)

From Verif Require Import Bytes BytesFacts Features Nom Types Utf8 Conv ValueSpec ValueFacts Grammar SoundCap MoreFacts NameFacts AbnfSpec AbnfFacts AbnfCore.
Open Scope N_scope.
Open Scope abnf_scope.

Section Commands.
Context {F : features}.
Local Notation D := (derives true true).
Ltac rule := apply R_ref; intros t; cbn [rules]; split.
Ltac gist := first [eassumption | inword | kw].
Ltac done := rewrite <- ?app_assoc; eexists; solve [econstructor; gist].
Ltac down := intros [v H]; inversion H; subst; norm; wordcases; kwsplit; norm; try build.

(** ** Parts *)
#[global] Instance status_att_rule : R StatusAtt (word status_att_table).
Proof.
  apply R_ref. intros t. rewrite word_words. unfold status_att_table. cbn [rules]. rewrite !D_or, D_feature, !D_str.
  destruct ext_condstore_qresync; cbn [map fst words when app]; intuition discriminate.
Qed.
#[global] Instance part_rule : R SectionPart G_part.
Proof. apply R_ref. exact (I_dot _ _ _). Qed.
#[global] Instance header_list_rule : R HeaderList G_header_list.
Proof. apply R_ref. exact (I_parens _ _ _). Qed.
#[global] Instance partial_rule : R Partial G_partial.
Proof. rule. - intros H. dinv. done. - down. Qed.
#[global] Instance partial_rule' : R ("<" ^ Number ^ "." ^ NzNumber ^ ">") G_partial.
Proof. intros t. rewrite <- (spec Partial), D_ref. reflexivity. Qed.
#[global] Instance section_binary_rule : R SectionBinary G_section_binary.
Proof.
  rule.
  - intros H. dinv. match goal with H : optional _ _ _ |- _ => inversion H; subst end.
    + exists []. exact g_section_binary_all.
    + done.
  - intros [v H]. inversion H; subst; [| build].
    change (bs "[]") with (bs "[" ++ bs "]"). build.
Qed.
Lemma letters_join t u s r w : same_letters t s -> same_letters u r -> w = s ++ r -> same_letters (t ++ u) w.
Proof. intros H G ->. now apply letters_app. Qed.
(** [split H a b]: the keyword of [H] is [a] and [b]. *)
Ltac halve H a b := match type of H with same_letters _ ?s => change s with (bs a ++ bs b) in H end;
  let u := fresh "k" in let v := fresh "k" in let U := fresh "K" in
  apply letters_split in H; destruct H as (u & v & -> & U & H).
(** section-msgtext, with the part before it *)
Definition G_msgtext (n : option (list N)) : lang section := fun t s =>
  (t ~ "HEADER" /\ s = SecHeader n) \/
  (exists k u l, t = k ++ bs " " ++ u /\ k ~ "HEADER.FIELDS" /\ G_header_list u l /\ s = SecHeaderFields n l) \/
  (exists k u l, t = k ++ bs " " ++ u /\ k ~ "HEADER.FIELDS.NOT" /\ G_header_list u l /\ s = SecHeaderFieldsNot n l) \/
  (t ~ "TEXT" /\ s = SecText n).
Lemma msgtext_rule n : R SectionMsgtext (G_msgtext n).
Proof.
  rule.
  - intros H. unfold G_msgtext. orcases H.
    + dinv. eauto 6.
    + apply D_cat in H as (k & v & -> & K & H). apply D_str in K. apply D_cat in H as (k' & w & -> & K' & H).
      apply D_or in K' as [K' | K']; dinv.
      * eexists. right. left. eexists _, _, _. rewrite app_nil_l. split; [reflexivity |]. eauto.
      * eexists. right. right. left. eexists (_ ++ _), _, _. rewrite <- app_assoc. split; [reflexivity |].
        split; [eapply letters_join; [exact K | eassumption | reflexivity] |]. eauto.
    + dinv. eauto 8.
  - intros [v [[H _] | [(k & u & l & -> & K & H & _) | [(k & u & l & -> & K & H & _) | [H _]]]]]; [build | build | | build].
    halve K "HEADER.FIELDS"%bytestr ".NOT"%bytestr. norm. build.
Qed.
Lemma msgtext_spec p n t s : G_part_dot p n -> G_msgtext n t s -> G_section_spec (p ++ t) s.
Proof.
  intros P [[H ->] | [(k & u & l & -> & K & H & ->) | [(k & u & l & -> & K & H & ->) | [H ->]]]]; now econstructor.
Qed.
#[global] Instance section_spec_rule : R SectionSpec G_section_spec.
Proof.
  rule.
  - rewrite D_or, (msgtext_rule None t), D_cat. intros [[s H] | (u & v & -> & H & G)].
    + exists s. rewrite <- (app_nil_l t). eapply msgtext_spec; [constructor | exact H].
    + apply (spec SectionPart) in H as [n H]. apply D_or in G as [G | G].
      * apply D_eps in G as ->. exists (SecPart n). rewrite app_nil_r. now constructor.
      * apply D_cat in G as (d & w & -> & G & K). apply D_str in G. fixed G. apply D_ref in K. cbn [rules] in K.
        rewrite D_or, (msgtext_rule (Some n) w), D_str in K. destruct K as [[s K] | K].
        -- exists s. rewrite app_assoc. eapply msgtext_spec; [constructor; exact H | exact K].
        -- exists (SecMime n). now apply g_sec_mime.
  - intros [v H].
    assert (M : forall p n t s, G_part_dot p n -> G_msgtext n t s -> D (SectionMsgtext / SectionPart ^ opt ("." ^ SectionText)) (p ++ t)).
    { clear. intros p n t s P G. apply ex_intro in G. apply (msgtext_rule n) in G. inversion P as [| q m Q]; subst; [now apply d_or_l |].
      apply d_or_r. norm. build. }
    unfold G_msgtext in M. inversion H; subst; [build | | | | | norm; build].
    + eapply M; [eassumption |]. eauto.
    + eapply M; [eassumption |]. right. left. eexists _, _, _. eauto.
    + eapply M; [eassumption |]. right. right. left. eexists _, _, _. eauto.
    + eapply M; [eassumption |]. auto.
Qed.
#[global] Instance section_rule : R Section_ G_section.
Proof. rule. - intros H. dinv. done. - down. Qed.
Ltac join2 := match goal with H : same_letters ?x ?s, G : same_letters ?y ?r |- context [?x ++ ?y] =>
  let J := fresh "J" in pose proof (letters_app _ _ _ _ H G) as J end.
Ltac inwhen T := eexists; constructor; unfold T; match goal with H : ?b = true |- _ => rewrite H end; cbn [when app]; inword.
#[global] Instance fetch_att_rule : R FetchAtt G_fetch_att.
Proof.
  rule.
  - intros H. orcases H; dinv; norm; try done; try (join2; done). inwhen @fetch_words.
  - intros [v H]. inversion H; subst; try (norm; build; fail).
    match goal with H : word _ _ _ |- _ => apply ex_intro in H; apply word_words in H; rename H into W end.
    unfold fetch_words in W. destruct ext_condstore_qresync eqn:CQ; cbn [map fst words when app] in W.
    all: repeat match type of W with _ \/ _ => destruct W as [W | W] | False => destruct W end.
    all: try (build; fail).

    all: first [halve W "BODY"%bytestr "STRUCTURE"%bytestr | halve W "RFC822"%bytestr ".HEADER"%bytestr
      | halve W "RFC822"%bytestr ".SIZE"%bytestr | halve W "RFC822"%bytestr ".TEXT"%bytestr]; build.
Qed.
#[global] Instance macro_or_items_rule :
  R ("ALL" / "FULL" / "FAST" / FetchAtt / "(" ^ (FetchAtt ^ Many (SP ^ FetchAtt)) ^ ")" / Extra ("(" ^ ")")) G_macro_or_items.
Proof.
  intros t. split.
  - intros H. orcases H; dinv; try done.
    + eexists. apply g_items. match goal with H : in_parens _ _ _ |- _ => inversion H; subst end. constructor. constructor. eassumption.
    + exists (MIItems []). apply g_items. exact (parens_intro _ [] [] (list_none _ _)).
  - intros [v H]. inversion H; subst; wordcases; try (build; fail).
    match goal with H : in_parens _ _ _ |- _ => inversion H as [u w G]; subst end. inversion G; subst.
    + apply d_or_r. norm. build.
    + apply d_or_l, d_or_r. build.
Qed.

#[global] Instance entry_rule : R Entry G_astring. Proof. apply R_ref. exact astring_rule. Qed.
#[global] Instance quota_root_rule : R QuotaRootName G_astring. Proof. apply R_ref. exact astring_rule. Qed.
#[global] Instance userid_rule : R Userid G_astring. Proof. apply R_ref. exact astring_rule. Qed.
#[global] Instance password_rule : R Password G_astring. Proof. apply R_ref. exact astring_rule. Qed.
#[global] Instance uidvalidity_rule : R Uidvalidity G_nz_number. Proof. apply R_ref. exact nz_number_rule. Qed.
#[global] Instance resource_limit_rule : R ResourceLimit G_number64. Proof. apply R_ref. exact number64_rule. Qed.
#[global] Instance id_param_rule : R IdParam G_id_param.
Proof. rule. - intros H. dinv. done. - down. Qed.
#[global] Instance id_params_rule : R IdParamsList G_id_params.
Proof.
  rule.
  - intros H. orcases H.
    + dinv. match goal with H : in_parens _ _ _ |- _ => inversion H; subst end. eexists. eapply g_id_list with (e := []); eauto.
    + dinv. eexists. apply g_id_nil. assumption.
    + dinv. eexists. eapply g_id_list with (e := bs " "); eauto.
  - intros [v H]. inversion H as [| u l e L [-> | [Q ->]]]; subst.
    + apply d_or_l, d_or_r. apply (spec Nil). now exists tt.
    + apply d_or_l, d_or_l. norm. build.
    + apply d_or_r. build.
Qed.
#[global] Instance entry_value_rule : R EntryValue G_entry_value.
Proof. rule. - intros H. dinv. done. - down. Qed.
#[global] Instance entry_values_rule : R EntryValues G_entry_values.
Proof. apply R_ref. exact (I_parens _ _ _). Qed.
#[global] Instance depth_rule : R ("0" / "1" / "infinity") (word depth_table).
Proof. intros t. rewrite word_words, !D_or, !D_str. cbn [map fst words depth_table]. tauto. Qed.
Ltac joinsp := repeat match goal with H : same_letters ?x ?s |- context [?x ++ ?sp ++ ?r] =>
  unify sp (bs " "); rewrite (app_assoc x sp r);
  let J := fresh "J" in assert (J : same_letters (x ++ sp) (s ++ bs " ")) by (apply letters_app; [exact H | now apply letters_fixed]);
  let s' := eval cbv in (s ++ bs " ") in change (s ++ bs " ") with s' in J;
  clear H end.
Ltac done' := rewrite <- ?app_assoc, ?app_nil_l, ?app_nil_r; joinsp; eexists; solve [econstructor; gist].
#[global] Instance getmetadata_option_rule : R GetmetadataOption G_getmetadata_option.
Proof. rule. - intros H. dinv; done'. - down. Qed.
#[global] Instance getmetadata_options_rule : R GetmetadataOptions (in_parens (sep_by (bs " ") G_getmetadata_option)).
Proof. apply R_ref. exact (I_parens _ _ _). Qed.
#[global] Instance entries_rule : R Entries G_entries.
Proof. rule. - intros H. dinv; done. - down. Qed.
#[global] Instance resource_rule : R ResourceName G_resource.
Proof.
  apply name_rule; [reflexivity |]. intros t. rewrite D_ref. cbn [rules]. rewrite !D_or, !D_str, D_ref, atom_rule'.
  change (rules ResourceNameExt) with (Ref Atom). rewrite atom_rule'. split; [| auto].
  intros [[[[H | H] | H] | H] | H]; [eapply letters_atom; [exact H | reflexivity] .. | exact H].
Qed.
#[global] Instance thread_alg_rule : R ThreadAlg G_thread_alg.
Proof.
  apply name_rule; [reflexivity |]. intros t. rewrite D_ref. cbn [rules]. rewrite !D_or, !D_str, D_ref, atom_rule'.
  change (rules ThreadAlgExt) with (Ref Atom). rewrite atom_rule'. split; [| auto].
  intros [[H | H] | H]; [eapply letters_atom; [exact H | reflexivity] .. | exact H].
Qed.
#[global] Instance auth_type_rule : R AuthType G_auth_type.
Proof. apply name_rule; [reflexivity |]. intros t. now rewrite D_ref. Qed.
Lemma auth_type_atom t : D AuthType t <-> some_of ATOM_CHAR t.
Proof. rewrite D_ref. apply atom_rule'. Qed.
#[global] Instance enable_name_rule : R Capability G_enable_name.
Proof.
  apply name_rule.
  - unfold enable_table. now destruct ext_condstore_qresync, ext_metadata, ext_utf8.
  - intros t. rewrite D_ref. cbn [rules]. rewrite D_or, atom_rule'. split; [| auto].
    intros [H | H]; [| exact H]. apply D_cat in H as (u & v & -> & H & G). apply D_str in H. apply auth_type_atom in G as [_ G].
    destruct (letters_atom u _ H eq_refl) as [N A]. split; [now destruct u | apply Forall_app; auto].
Qed.
#[global] Instance quota_set_rule : R SetquotaResource G_quota_set.
Proof. rule. - intros H. dinv; done. - down. Qed.
#[global] Instance setquota_list_rule : R SetquotaList (in_parens (list_of (bs " ") G_quota_set)).
Proof. apply R_ref. exact (I_parens _ _ _). Qed.
#[global] Instance sort_key_rule : R SortKey (word sort_key_table).
Proof. apply R_ref. intros t. rewrite word_words. cbn [rules]. rewrite !D_or, !D_str. cbn [map fst words sort_key_table]. tauto. Qed.
#[global] Instance sort_criterion_rule : R SortCriterion G_sort_criterion.
Proof.
  rule.
  - intros H. rewrite D_cat in H. destruct H as (u & v & -> & H & G). apply D_or in H as [H | H]; dinv; done'.
  - intros [v H]. inversion H; subst; kwsplit; norm; build.
Qed.
#[global] Instance sort_criteria_rule : R SortCriteria (in_parens (sep_by (bs " ") G_sort_criterion)).
Proof. apply R_ref. exact (I_parens _ _ _). Qed.
#[global] Instance seq_match_rule : R SeqMatchData G_known_uids.
Proof. rule. - intros H. dinv; done. - down. Qed.
#[global] Instance select_param_rule : R SelectParam G_select_param.
Proof.
  rule.
  - intros H. orcases H; dinv; [done |].
    eexists. eapply text_is;
      [eapply g_sel_qresync; [eapply (letters_join _ (bs " (") _ (bs " (")); [eassumption | apply same_refl | reflexivity] | eassumption ..] | text].
  - down.
Qed.
#[global] Instance fetch_modifier_rule : R FetchModifier G_fetch_modifier.
Proof. rule. - intros H. dinv; done'. - down. Qed.
#[global] Instance store_modifier_rule : R StoreModifier G_store_modifier.
Proof. rule. - intros H. dinv; done'. - down. Qed.
Lemma condstore_rule {A} r x (L : lang A) : R x L ->
  rules r = Feature ext_condstore_qresync (SP ^ "(" ^ (x ^ Many (SP ^ x)) ^ ")") -> R (opt (Ref r)) (condstore_list L).
Proof.
  intros E Er t. unfold condstore_list. split.
  - intros H. apply D_or in H as [H | H]; [apply D_eps in H as ->; exists []; auto |].
    apply D_ref in H. rewrite Er in H. dinv. eexists. right. split; [assumption |]. apply opt_list_some. eassumption.
  - intros [l [[-> ->] | [C H]]]; [apply d_or_l, d_eps |]. inversion H as [| u l' G]; subst; [apply d_or_l, d_eps |].
    apply d_or_r, l_ref. rewrite Er. apply d_feature; [exact C |]. build.
Qed.
#[global] Instance select_params_rule : R (opt SelectParams) (condstore_list G_select_param) | 0.
Proof. exact (condstore_rule SelectParams SelectParam _ _ eq_refl). Qed.
#[global] Instance fetch_modifiers_rule : R (opt FetchModifiers) (condstore_list G_fetch_modifier) | 0.
Proof. exact (condstore_rule FetchModifiers FetchModifier _ _ eq_refl). Qed.
#[global] Instance store_modifiers_rule : R (opt StoreModifiers) (condstore_list G_store_modifier) | 0.
Proof. exact (condstore_rule StoreModifiers StoreModifier _ _ eq_refl). Qed.
#[global] Instance opt_flags_rule : R (opt (SP ^ FlagList)) G_opt_flags | 0.
Proof.
  intros t. rewrite (I_opt _ _ (I_after _ _ flag_list_rule) t). unfold G_opt_flags. split.
  - intros [o H]. inversion H; subst; [exists []; auto | eauto].
  - intros [l [[-> ->] | H]]; [exists None; constructor | exists (Some l); now constructor].
Qed.
#[global] Instance opt_getmetadata_rule : R (opt (SP ^ GetmetadataOptions)) (opt_list G_getmetadata_option) | 0.
Proof.
  intros t. rewrite (I_opt _ _ (I_after _ _ getmetadata_options_rule) t). split.
  - intros [o H]. inversion H as [| u l G]; subst; [exists []; constructor |]. inversion G; subst. eexists. apply opt_list_some. eassumption.
  - intros [l H]. inversion H; subst; [exists None; constructor | exists (Some l); constructor; now constructor].
Qed.
#[global] Instance store_flags_rule : R (FlagList / Flag ^ Many (SP ^ Flag)) G_store_flags.
Proof. intros t. split. - intros H. orcases H; dinv; done. - down. Qed.
#[global] Instance message_rule : R (Literal / Literal8) G_message.
Proof. intros t. split. - intros H. orcases H; dinv; done. - down. Qed.
#[global] Instance status_items_rule :
  R ("(" ^ (StatusAtt ^ Many (SP ^ StatusAtt)) ^ ")" / Extra ("(" ^ ")")) (in_parens (list_of (bs " ") (word status_att_table))).
Proof.
  intros t. split.
  - intros H. orcases H; dinv.
    + match goal with H : in_parens _ _ _ |- _ => inversion H; subst end. eexists. constructor. constructor. eassumption.
    + exists []. exact (parens_intro _ [] [] (list_none _ _)).
  - intros [v H]. inversion H as [u w G]; subst. inversion G; subst.
    + apply d_or_r. norm. build.
    + apply d_or_l. build.
Qed.
#[global] Instance store_type_rule : R (opt ("+" / "-")) G_store_type | 0.
Proof.
  intros t. split.
  - intros H. apply D_or in H as [H | H]; [dinv | orcases H; dinv]; eexists; constructor.
  - intros [v H]. inversion H; subst; build.
Qed.
#[global] Instance silent_rule : R (opt ".SILENT") G_silent | 0.
Proof.
  intros t. split.
  - intros H. apply D_or in H as [H | H]; dinv; done.
  - intros [v H]. inversion H; subst; build.
Qed.
#[global] Instance opt_uid_rule : R (opt ("UID" ^ SP)) G_uid | 0.
Proof.
  intros t. split.
  - intros H. apply D_or in H as [H | H]; dinv; eexists; [constructor | apply g_uid; kw].
  - intros [v H]. inversion H; subst; kwsplit; norm; build.
Qed.
#[global] Instance initial_response_rule : R (Base64 / "=") (fun u p => G_base64 u p \/ (u = bs "=" /\ p = [])).
Proof.
  intros t. split.
  - intros H. orcases H; dinv; eauto. 
  - intros [v [H | [-> _]]]; build.
Qed.

(** ** Commands *)
Lemma command_to t c : G_command_body t c -> D (CommandAny / CommandAuth / CommandNonauth / CommandSelect) t.
Proof.
  intros H. destruct H.
  all: try (wordcases; kwsplit; norm; build; fail).
  { apply ex_intro in H. apply word_words in H. unfold command_words in H.
    destruct ext_namespace eqn:E1, starttls eqn:E2; cbn [map fst words when app] in H;
    repeat match type of H with _ \/ _ => destruct H as [H | H] | False => destruct H end; build. }
  all: match goal with H : G_uid _ _ |- _ => destruct H end; kwsplit; norm; build.
Qed.
Ltac via c := eexists; eapply text_is; [eapply c; first [eassumption | solve [apply g_uid; kw] | apply g_no_uid | kw] | text].
Lemma command_from t : D (CommandAny / CommandAuth / CommandNonauth / CommandSelect) t -> exists c, G_command_body t c.
Proof.
  intros H. dinv.
  all: try match goal with H : exists tc u, _ |- _ => destruct H as (? & ? & -> & ? & ?) end.
  all: try done'.
  all: try match goal with H : same_letters _ _ |- exists c, G_command_body (_ ++ _) c =>
    first [via g_cmd_copy | via g_cmd_move | via g_cmd_fetch | via g_cmd_store | via g_cmd_search | via g_cmd_search_charset
          | via g_cmd_sort | via g_cmd_thread | via g_cmd_expunge_uid] end.
  - inwhen @command_words.
  - match goal with H : optional _ _ _ |- _ => inversion H as [| ? ? A]; subst end.
    + via g_cmd_authenticate.
    + inversion A; subst. via g_cmd_authenticate_ir.
  - eexists. apply g_cmd_word. unfold command_words. match goal with H : starttls = true |- _ => rewrite H end.
    destruct ext_namespace; cbn [when app]; inword.
Qed.
#[global] Instance command_rule : R Command G_command.
Proof.
  rule.
  - intros H. apply D_cat in H as (tt & u & -> & H & G). apply (spec Tag) in H as [tag H]. apply D_cat in G as (sp & v & -> & G & K).
    apply D_str in G. fixed G. apply D_cat in K as (w & e & -> & K & E). apply command_from in K as [c K]. apply crlf_rule in E.
    eexists. eapply g_command; eassumption.
  - intros [v H]. inversion H as [tt tag u b e T B E]; subst. apply d_cat; [build |]. apply d_cat; [build |].
    apply d_cat; [now apply (command_to u b) | now apply crlf_rule].
Qed.
#[global] Instance authenticate_data_rule : R AuthenticateData G_authenticate_data.
Proof.
  rule.
  - intros H. apply D_cat in H as (u & e & -> & H & E). apply crlf_rule in E. orcases H; dinv; eexists; constructor; eassumption.
  - intros [v H]. inversion H; subst; apply d_cat; try (now apply crlf_rule); build.
Qed.
#[global] Instance idle_done_rule : R IdleDone G_idle_done.
Proof.
  rule.
  - intros H. apply D_cat in H as (u & e & -> & H & E). apply crlf_rule in E. dinv; eexists; now constructor.
  - intros [v H]. inversion H; subst; apply d_cat; [build | now apply crlf_rule].
Qed.
End Commands.
