(** For C60: the grammar with more features has all sentences of the grammar with fewer, with the same
    meaning up to names that it has learnt. *)

From Verif Require Import Bytes Features Nom Types Utf8 ValueSpec ValueFacts ParseCore ParseResp OtherCode Grammar RespGrammar MoreSpec.
Open Scope N_scope.

(** The combinators of Grammar.v are monotone. *)
Definition sep_mono {A} sep (L L' : lang A) (H : forall t a, L t a -> L' t a) : forall t l, sep_by sep L t l -> sep_by sep L' t l :=
  fix go t l (s : sep_by sep L t l) : sep_by sep L' t l :=
    match s with
    | sep_one _ _ t a h => sep_one sep L' t a (H t a h)
    | sep_more _ _ t a u l h s' => sep_more sep L' t a u l (H t a h) (go u l s')
    end.
Definition many_mono {A} (L L' : lang A) (H : forall t a, L t a -> L' t a) : forall t l, many L t l -> many L' t l :=
  fix go t l (s : many L t l) : many L' t l :=
    match s with
    | many_none _ => many_none L'
    | many_more _ t a u l h s' => many_more L' t a u l (H t a h) (go u l s')
    end.
Definition parens_mono {A} (L L' : lang A) t a (s : in_parens L t a) (H : forall t a, L t a -> L' t a) : in_parens L' t a :=
  match s with parens_intro _ t a h => parens_intro L' t a (H t a h) end.
Lemma sep_mono' {A} sep (L L' : lang A) t l : sep_by sep L t l -> (forall t a, L t a -> L' t a) -> sep_by sep L' t l.
Proof. intros S H. exact (sep_mono sep L L' H t l S). Qed.
Lemma many_mono' {A} (L L' : lang A) t l : many L t l -> (forall t a, L t a -> L' t a) -> many L' t l.
Proof. intros S H. exact (many_mono L L' H t l S). Qed.
Lemma optional_mono {A} (L L' : lang A) t a : optional L t a -> (forall t a, L t a -> L' t a) -> optional L' t a.
Proof. intros [| u b S] H; constructor. now apply H. Qed.
Lemma after_mono {A} s (L L' : lang A) t a : after s L t a -> (forall t a, L t a -> L' t a) -> after s L' t a.
Proof. intros [u b S] H. constructor. now apply H. Qed.
Lemma list_mono {A} s (L L' : lang A) t a : list_of s L t a -> (forall t a, L t a -> L' t a) -> list_of s L' t a.
Proof. intros [| u b S] H; constructor. eapply sep_mono'; eauto. Qed.
Lemma least_mono {A} n (L L' : lang A) t a : at_least n L t a -> (forall t a, L t a -> L' t a) -> at_least n L' t a.
Proof. intros [S N] H. split; [eapply many_mono'; eauto | exact N]. Qed.
Lemma opt_list_mono {A} (L L' : lang A) t a : opt_list L t a -> (forall t a, L t a -> L' t a) -> opt_list L' t a.
Proof. intros [| u b S] H; constructor. eapply parens_mono; [exact S |]. intros v c X. eapply sep_mono'; eauto. Qed.
Lemma word_mono {A} (T T' : list (bytes * A)) t a : word T t a -> incl T T' -> word T' t a.
Proof. intros [u s b I E] H. econstructor; [apply H; exact I | exact E]. Qed.
Lemma when_mono {A} b b' (l : list A) : (b = true -> b' = true) -> incl (when b l) (when b' l).
Proof. intros H. destruct b; [rewrite H by reflexivity; apply incl_refl | intros x []]. Qed.
Lemma app_mono {A} (a a' b b' : list A) : incl a a' -> incl b b' -> incl (a ++ b) (a' ++ b').
Proof. intros H G. apply incl_app; [now apply incl_appl | now apply incl_appr]. Qed.
Lemma quirk_mono (q q' : bool) (A B : Prop) : A \/ (q = true /\ B) -> (q = true -> q' = true) -> A \/ (q' = true /\ B).
Proof. tauto. Qed.
Lemma stray_mono q q' t : stray_space q t -> (q = true -> q' = true) -> stray_space q' t.
Proof. unfold stray_space. tauto. Qed.
(** With a relation between the values instead of equality *)
Lemma sep_relate {A} sep (L L' : lang A) (R : A -> A -> Prop) t l : (forall t a, L t a -> exists a', L' t a' /\ R a a') ->
  sep_by sep L t l -> exists l', sep_by sep L' t l' /\ Forall2 R l l'.
Proof.
  intros H S. induction S as [t a h | t a u l h S (l' & S' & E)]; destruct (H _ _ h) as (a' & h' & r).
  - exists [a']. split; [now constructor | repeat constructor; exact r].
  - exists (a' :: l'). split; [now constructor | now constructor].
Qed.
Lemma many_relate {A} (L L' : lang A) (R : A -> A -> Prop) t l : (forall t a, L t a -> exists a', L' t a' /\ R a a') ->
  many L t l -> exists l', many L' t l' /\ Forall2 R l l'.
Proof.
  intros H S. induction S as [| t a u l h S (l' & S' & E)]; [exists []; split; constructor |]. destruct (H _ _ h) as (a' & h' & r).
  exists (a' :: l'). split; [now constructor | now constructor].
Qed.

Section More.
Context (F F' : features) (M : more F F').
Lemma has_condstore : @ext_condstore_qresync F = true -> @ext_condstore_qresync F' = true. Proof. unfold more in M. tauto. Qed.
Lemma has_id : @ext_id F = true -> @ext_id F' = true. Proof. unfold more in M. tauto. Qed.
Lemma has_metadata : @ext_metadata F = true -> @ext_metadata F' = true. Proof. unfold more in M. tauto. Qed.
Lemma has_namespace : @ext_namespace F = true -> @ext_namespace F' = true. Proof. unfold more in M. tauto. Qed.
Lemma has_utf8 : @ext_utf8 F = true -> @ext_utf8 F' = true. Proof. unfold more in M. tauto. Qed.
Lemma has_login_referrals : @ext_login_referrals F = true -> @ext_login_referrals F' = true. Proof. unfold more in M. tauto. Qed.
Lemma has_mailbox_referrals : @ext_mailbox_referrals F = true -> @ext_mailbox_referrals F' = true. Proof. unfold more in M. tauto. Qed.
Lemma has_starttls : @starttls F = true -> @starttls F' = true. Proof. unfold more in M. tauto. Qed.
Lemma has_crlf : @quirk_crlf_relaxed F = true -> @quirk_crlf_relaxed F' = true. Proof. unfold more in M. tauto. Qed.
Lemma has_rectify : @quirk_rectify_numbers F = true -> @quirk_rectify_numbers F' = true. Proof. unfold more in M. tauto. Qed.
Lemma has_missing : @quirk_missing_text F = true -> @quirk_missing_text F' = true. Proof. unfold more in M. tauto. Qed.
Lemma has_ts_capability : @quirk_trailing_space_capability F = true -> @quirk_trailing_space_capability F' = true. Proof. unfold more in M. tauto. Qed.
Lemma has_ts_id : @quirk_trailing_space_id F = true -> @quirk_trailing_space_id F' = true. Proof. unfold more in M. tauto. Qed.
Lemma has_ts_search : @quirk_trailing_space_search F = true -> @quirk_trailing_space_search F' = true. Proof. unfold more in M. tauto. Qed.
Lemma has_ts_status : @quirk_trailing_space_status F = true -> @quirk_trailing_space_status F' = true. Proof. unfold more in M. tauto. Qed.
Lemma has_spaces : @quirk_spaces_between_addresses F = true -> @quirk_spaces_between_addresses F' = true. Proof. unfold more in M. tauto. Qed.
Lemma has_empty : @quirk_empty_continue_req F = true -> @quirk_empty_continue_req F' = true. Proof. unfold more in M. tauto. Qed.
Lemma has_enc : @quirk_body_fld_enc_nil_to_empty F = true -> @quirk_body_fld_enc_nil_to_empty F' = true. Proof. unfold more in M. tauto. Qed.
Lemma has_quota : @quirk_excessive_space_quota_resource F = true -> @quirk_excessive_space_quota_resource F' = true. Proof. unfold more in M. tauto. Qed.
Hint Resolve has_condstore has_id has_metadata has_namespace has_utf8 has_login_referrals has_mailbox_referrals has_starttls has_crlf
  has_rectify has_missing has_ts_capability has_ts_id has_ts_search has_ts_status has_spaces has_empty has_enc has_quota : mono.
Hint Resolve sep_mono' many_mono' optional_mono after_mono list_mono least_mono opt_list_mono word_mono parens_mono quirk_mono stray_mono : mono.
Ltac tables := unfold enable_table, capability_table, status_att_table, status_val_table, fetch_words, command_words, code_words, code_numbers;
  repeat apply app_mono; first [apply incl_refl | apply when_mono; auto with mono].
Lemma m_eol t : @eol F t -> @eol F' t.
Proof. unfold eol. eauto with mono. Qed.
Hint Resolve m_eol : mono.
Lemma m_G_literal t a : @G_literal F t a -> @G_literal F' t a.
Proof.
  intros H. destruct H.
  - eapply g_literal; eauto with mono.
Qed.
Hint Resolve m_G_literal : mono.
Lemma m_G_literal8 t a : @G_literal8 F t a -> @G_literal8 F' t a.
Proof.
  intros H. destruct H.
  - eapply g_literal8; eauto with mono.
Qed.
Hint Resolve m_G_literal8 : mono.
Lemma m_G_string t a : @G_string F t a -> @G_string F' t a.
Proof.
  intros H. destruct H.
  - eapply g_str_quoted; eauto with mono.
  - eapply g_str_utf8; eauto with mono.
  - eapply g_str_literal; eauto with mono.
Qed.
Hint Resolve m_G_string : mono.
Lemma m_G_nstring t a : @G_nstring F t a -> @G_nstring F' t a.
Proof.
  intros H. destruct H.
  - eapply g_nstr_string; eauto with mono.
  - eapply g_nstr_nil; eauto with mono.
Qed.
Hint Resolve m_G_nstring : mono.
Lemma m_G_astring t a : @G_astring F t a -> @G_astring F' t a.
Proof.
  intros H. destruct H.
  - eapply g_astr_atom; eauto with mono.
  - eapply g_astr_string; eauto with mono.
Qed.
Hint Resolve m_G_astring : mono.
Lemma m_G_nstring8 t a : @G_nstring8 F t a -> @G_nstring8 F' t a.
Proof.
  intros H. destruct H.
  - eapply g_n8_nstring; eauto with mono.
  - eapply g_n8_literal8; eauto with mono.
Qed.
Hint Resolve m_G_nstring8 : mono.
Lemma m_G_mailbox t a : @G_mailbox F t a -> @G_mailbox F' t a.
Proof.
  intros H. destruct H.
  - eapply g_mailbox; eauto with mono.
Qed.
Hint Resolve m_G_mailbox : mono.
Lemma m_G_list_mailbox t a : @G_list_mailbox F t a -> @G_list_mailbox F' t a.
Proof.
  intros H. destruct H.
  - eapply g_lm_token; eauto with mono.
  - eapply g_lm_string; eauto with mono.
Qed.
Hint Resolve m_G_list_mailbox : mono.
Lemma m_enable_table : incl (@enable_table F) (@enable_table F').
Proof. tables. Qed.
Hint Resolve m_enable_table : mono.
(** Whether a table has a word can be decided. *)
Lemma table_decided {A} (T : list (bytes * A)) t : (exists a, word T t a) \/ (forall s a, In (s, a) T -> ~ same_letters t s).
Proof.
  induction T as [| (s, a) T [(b & W) | N]].
  - right. intros s a [].
  - left. exists b. eapply word_mono; [exact W | now apply incl_tl, incl_refl].
  - destruct (list_eq_dec Byte.byte_eq_dec (lowers t) (lowers s)) as [E | E].
    + left. exists a. econstructor; [now left | now apply same_letters_spec].
    + right. intros s' a' [X | I]; [injection X as <- <-; intros Y; now apply same_letters_spec in Y | now apply (N _ a')].
Qed.
Lemma m_enable_name t a : @G_enable_name F t a -> exists a', @G_enable_name F' t a' /\ learn_enable F' a a'.
Proof.
  intros [u s c I E | u A N].
  - exists c. split; [| constructor]. eapply name_known; [apply m_enable_table; exact I | exact E].
  - destruct (table_decided (@enable_table F') u) as [(c & W) | N'].
    + exists c. split; [destruct W as [v s c I E]; eapply name_known; eauto | now constructor].
    + exists (CEOther u). split; [now apply name_other | constructor].
Qed.
Lemma m_capability_table : incl (@capability_table F) (@capability_table F').
Proof. tables. Qed.
Hint Resolve m_capability_table : mono.
Lemma m_G_known_capability t a : @G_known_capability F t a -> @G_known_capability F' t a.
Proof.
  intros H. destruct H.
  - eapply g_cap_word; eauto with mono.
  - eapply g_cap_auth; eauto with mono.
  - eapply g_cap_compress; eauto with mono.
  - eapply g_cap_sort; eauto with mono.
  - eapply g_cap_thread; eauto with mono.
  - eapply g_cap_quota; eauto with mono.
Qed.
Hint Resolve m_G_known_capability : mono.
(** What the grammar with more features knows in addition are words of the table. *)
Lemma known_capability_new t c : @G_known_capability F' t c -> @G_known_capability F t c \/ word (@capability_table F') t c.
Proof. intros H. destruct H; [now right | left; econstructor; eassumption ..]. Qed.
Lemma m_capability t a : @G_capability F t a -> exists a', @G_capability F' t a' /\ learn_capability F' a a'.
Proof.
  intros [u c K | u A N].
  - exists c. split; [apply g_cap_known; now apply m_G_known_capability | constructor].
  - destruct (table_decided (@capability_table F') u) as [(c & W) | N'].
    + exists c. split; [now apply g_cap_known, g_cap_word | now constructor].
    + exists (CapOther u). split; [| constructor]. apply g_cap_other; [exact A |]. intros c K.
      destruct (known_capability_new _ _ K) as [K' | W]; [now apply N in K' |]. inversion W as [v s c' I E]; subst. exact (N' s c I E).
Qed.
Definition m_search_key : forall t a, @G_search_key F t a -> @G_search_key F' t a.
Proof.
  fix IH 3. intros t a H. destruct H.
  - eapply g_key_word; eauto with mono.
  - eapply g_key_astring; eauto with mono.
  - eapply g_key_date; eauto with mono.
  - eapply g_key_keyword; eauto with mono.
  - eapply g_key_unkeyword; eauto with mono.
  - eapply g_key_header; eauto with mono.
  - eapply g_key_larger; eauto with mono.
  - eapply g_key_smaller; eauto with mono.
  - eapply g_key_not; [assumption | apply IH; assumption].
  - eapply g_key_or; [assumption | apply IH; assumption ..].
  - eapply g_key_uid; eauto with mono.
  - eapply g_key_modseq; eauto with mono.
  - eapply g_key_set; eauto with mono.
  - apply g_key_and. exact (parens_mono _ _ _ _ H (sep_mono _ _ _ IH)).
Defined.
Hint Resolve m_search_key : mono.
Lemma m_G_search_keys t a : @G_search_keys F t a -> @G_search_keys F' t a.
Proof.
  intros H. destruct H.
  - eapply g_search_keys; eauto with mono.
Qed.
Hint Resolve m_G_search_keys : mono.
Lemma m_status_att_table : incl (@status_att_table F) (@status_att_table F').
Proof. tables. Qed.
Hint Resolve m_status_att_table : mono.
Lemma m_status_val_table : incl (@status_val_table F) (@status_val_table F').
Proof. tables. Qed.
Hint Resolve m_status_val_table : mono.
Lemma m_G_status_val t a : @G_status_val F t a -> @G_status_val F' t a.
Proof.
  intros H. destruct H.
  - eapply g_status_val; eauto with mono.
Qed.
Hint Resolve m_G_status_val : mono.
Lemma m_G_header_list t a : @G_header_list F t a -> @G_header_list F' t a.
Proof. unfold G_header_list. eauto with mono. Qed.
Hint Resolve m_G_header_list : mono.
Lemma m_G_section_spec t a : @G_section_spec F t a -> @G_section_spec F' t a.
Proof.
  intros H. destruct H.
  - eapply g_sec_part; eauto with mono.
  - eapply g_sec_header; eauto with mono.
  - eapply g_sec_fields; eauto with mono.
  - eapply g_sec_fields_not; eauto with mono.
  - eapply g_sec_text; eauto with mono.
  - eapply g_sec_mime; eauto with mono.
Qed.
Hint Resolve m_G_section_spec : mono.
Lemma m_G_section t a : @G_section F t a -> @G_section F' t a.
Proof.
  intros H. destruct H.
  - eapply g_section; eauto with mono.
Qed.
Hint Resolve m_G_section : mono.
Lemma m_fetch_words : incl (@fetch_words F) (@fetch_words F').
Proof. tables. Qed.
Hint Resolve m_fetch_words : mono.
Lemma m_G_fetch_att t a : @G_fetch_att F t a -> @G_fetch_att F' t a.
Proof.
  intros H. destruct H.
  - eapply g_att_word; eauto with mono.
  - eapply g_att_body; eauto with mono.
  - eapply g_att_body_peek; eauto with mono.
  - eapply g_att_binary; eauto with mono.
  - eapply g_att_binary_peek; eauto with mono.
  - eapply g_att_binary_size; eauto with mono.
Qed.
Hint Resolve m_G_fetch_att : mono.
Lemma m_G_macro_or_items t a : @G_macro_or_items F t a -> @G_macro_or_items F' t a.
Proof.
  intros H. destruct H.
  - eapply g_macro; eauto with mono.
  - eapply g_item; eauto with mono.
  - eapply g_items; eauto with mono.
Qed.
Hint Resolve m_G_macro_or_items : mono.
Lemma m_G_id_param t a : @G_id_param F t a -> @G_id_param F' t a.
Proof.
  intros H. destruct H.
  - eapply g_id_param; eauto with mono.
Qed.
Hint Resolve m_G_id_param : mono.
Lemma m_G_id_params t a : @G_id_params F t a -> @G_id_params F' t a.
Proof.
  intros H. destruct H.
  - eapply g_id_nil; eauto with mono.
  - eapply g_id_list; eauto with mono.
Qed.
Hint Resolve m_G_id_params : mono.
Lemma m_G_entry_value t a : @G_entry_value F t a -> @G_entry_value F' t a.
Proof.
  intros H. destruct H.
  - eapply g_entry_value; eauto with mono.
Qed.
Hint Resolve m_G_entry_value : mono.
Lemma m_G_entry_values t a : @G_entry_values F t a -> @G_entry_values F' t a.
Proof. unfold G_entry_values. eauto with mono. Qed.
Hint Resolve m_G_entry_values : mono.
Lemma m_G_entries t a : @G_entries F t a -> @G_entries F' t a.
Proof.
  intros H. destruct H.
  - eapply g_entry; eauto with mono.
  - eapply g_entries; eauto with mono.
Qed.
Hint Resolve m_G_entries : mono.
Lemma m_condstore_list {A} (L : lang A) t l : @condstore_list F A L t l -> @condstore_list F' A L t l.
Proof. unfold condstore_list. eauto with mono. Qed.
Hint Resolve m_condstore_list : mono.
Lemma m_G_message t a : @G_message F t a -> @G_message F' t a.
Proof.
  intros H. destruct H.
  - eapply g_msg_literal; eauto with mono.
  - eapply g_msg_literal8; eauto with mono.
Qed.
Hint Resolve m_G_message : mono.
Lemma m_command_words : incl (@command_words F) (@command_words F').
Proof. tables. Qed.
Hint Resolve m_command_words : mono.
Inductive learn_cmd_body : command_body -> command_body -> Prop :=
| lcb_same c : learn_cmd_body c c
| lcb_enable l l' : Forall2 (learn_enable F') l l' -> learn_cmd_body (CEnable l) (CEnable l').
Lemma m_command_body t c : @G_command_body F t c -> exists c', @G_command_body F' t c' /\ learn_cmd_body c c'.
Proof.
  intros H. destruct H.
  - eexists; split; [eapply g_cmd_word; eauto with mono | constructor].
  - eexists; split; [eapply g_cmd_mailbox; eauto with mono | constructor].
  - eexists; split; [eapply g_cmd_id; eauto with mono | constructor].
  - eexists; split; [eapply g_cmd_append; eauto with mono | constructor].
  - eexists; split; [eapply g_cmd_examine; eauto with mono | constructor].
  - eexists; split; [eapply g_cmd_select; eauto with mono | constructor].
  - eexists; split; [eapply g_cmd_list; eauto with mono | constructor].
  - eexists; split; [eapply g_cmd_lsub; eauto with mono | constructor].
  - eexists; split; [eapply g_cmd_rename; eauto with mono | constructor].
  - eexists; split; [eapply g_cmd_status; eauto with mono | constructor].
  - match goal with X : sep_by _ _ _ _ |- _ => destruct (sep_relate _ _ _ _ _ _ m_enable_name X) as (l' & S & R) end. exists (CEnable l'). split; [now apply g_cmd_enable | now constructor].
  - eexists; split; [eapply g_cmd_compress; eauto with mono | constructor].
  - eexists; split; [eapply g_cmd_getquota; eauto with mono | constructor].
  - eexists; split; [eapply g_cmd_setquota; eauto with mono | constructor].
  - eexists; split; [eapply g_cmd_setmetadata; eauto with mono | constructor].
  - eexists; split; [eapply g_cmd_getmetadata; eauto with mono | constructor].
  - eexists; split; [eapply g_cmd_login; eauto with mono | constructor].
  - eexists; split; [eapply g_cmd_authenticate; eauto with mono | constructor].
  - eexists; split; [eapply g_cmd_authenticate_ir; eauto with mono | constructor].
  - eexists; split; [eapply g_cmd_expunge_uid; eauto with mono | constructor].
  - eexists; split; [eapply g_cmd_copy; eauto with mono | constructor].
  - eexists; split; [eapply g_cmd_move; eauto with mono | constructor].
  - eexists; split; [eapply g_cmd_fetch; eauto with mono | constructor].
  - eexists; split; [eapply g_cmd_store; eauto with mono | constructor].
  - eexists; split; [eapply g_cmd_search; eauto with mono | constructor].
  - eexists; split; [eapply g_cmd_search_charset; eauto with mono | constructor].
  - eexists; split; [eapply g_cmd_sort; eauto with mono | constructor].
  - eexists; split; [eapply g_cmd_thread; eauto with mono | constructor].
Qed.
Lemma m_command t c : @G_command F t c -> exists c', @G_command F' t c' /\ learn_command F' c c'.
Proof.
  intros [tt tag u b e T B E]. destruct (m_command_body _ _ B) as (b' & B' & R). exists (mkCommand tag b').
  split; [constructor; auto with mono | destruct R; now constructor].
Qed.
Lemma m_G_authenticate_data t a : @G_authenticate_data F t a -> @G_authenticate_data F' t a.
Proof.
  intros H. destruct H.
  - eapply g_ad_continue; eauto with mono.
  - eapply g_ad_cancel; eauto with mono.
Qed.
Hint Resolve m_G_authenticate_data : mono.
Lemma m_G_idle_done t a : @G_idle_done F t a -> @G_idle_done F' t a.
Proof.
  intros H. destruct H.
  - eapply g_idle_done; eauto with mono.
Qed.
Hint Resolve m_G_idle_done : mono.
Lemma m_G_address t a : @G_address F t a -> @G_address F' t a.
Proof.
  intros H. destruct H.
  - eapply g_address; eauto with mono.
Qed.
Hint Resolve m_G_address : mono.
Lemma m_G_addresses t a : @G_addresses F t a -> @G_addresses F' t a.
Proof.
  intros H. destruct H.
  - eapply g_addresses_nil; eauto with mono.
  - eapply g_addresses; eauto with mono.
Qed.
Hint Resolve m_G_addresses : mono.
Lemma m_G_envelope t a : @G_envelope F t a -> @G_envelope F' t a.
Proof.
  intros H. destruct H.
  - eapply g_envelope; eauto with mono.
Qed.
Hint Resolve m_G_envelope : mono.
Lemma m_G_pair t a : @G_pair F t a -> @G_pair F' t a.
Proof.
  intros H. destruct H.
  - eapply g_pair; eauto with mono.
Qed.
Hint Resolve m_G_pair : mono.
Lemma m_G_body_params t a : @G_body_params F t a -> @G_body_params F' t a.
Proof.
  intros H. destruct H.
  - eapply g_params_nil; eauto with mono.
  - eapply g_params; eauto with mono.
Qed.
Hint Resolve m_G_body_params : mono.
Lemma m_G_body_enc t a : @G_body_enc F t a -> @G_body_enc F' t a.
Proof.
  intros H. destruct H.
  - eapply g_enc; eauto with mono.
  - eapply g_enc_nil; eauto with mono.
Qed.
Hint Resolve m_G_body_enc : mono.
Lemma m_G_octets t a : @G_octets F t a -> @G_octets F' t a.
Proof.
  intros H. destruct H.
  - eapply g_octets; eauto with mono.
  - eapply g_octets_negative; eauto with mono.
Qed.
Hint Resolve m_G_octets : mono.
Lemma m_G_body_fields t a : @G_body_fields F t a -> @G_body_fields F' t a.
Proof.
  intros H. destruct H.
  - eapply g_fields; eauto with mono.
Qed.
Hint Resolve m_G_body_fields : mono.
Definition m_body_extension : forall d t a, @G_body_extension F d t a -> @G_body_extension F' d t a.
Proof.
  fix IH 4. intros d t a H. destruct H as [d t n H | d t n H | d t l H].
  - apply g_be_nstring. eauto with mono.
  - apply g_be_number. eauto with mono.
  - apply g_be_list. exact (parens_mono _ _ _ _ H (sep_mono _ _ _ (IH d))).
Defined.
Hint Resolve m_body_extension : mono.
Lemma m_G_body_dsp t a : @G_body_dsp F t a -> @G_body_dsp F' t a.
Proof.
  intros H. destruct H.
  - eapply g_dsp_nil; eauto with mono.
  - eapply g_dsp; eauto with mono.
Qed.
Hint Resolve m_G_body_dsp : mono.
Lemma m_G_body_lang t a : @G_body_lang F t a -> @G_body_lang F' t a.
Proof.
  intros H. destruct H.
  - eapply g_lang_nil; eauto with mono.
  - eapply g_lang_one; eauto with mono.
  - eapply g_lang_list; eauto with mono.
Qed.
Hint Resolve m_G_body_lang : mono.
Lemma m_G_location t a : @G_location F t a -> @G_location F' t a.
Proof.
  intros H. destruct H.
  - eapply g_location; eauto with mono.
Qed.
Hint Resolve m_G_location : mono.
Lemma m_G_language t a : @G_language F t a -> @G_language F' t a.
Proof.
  intros H. destruct H.
  - eapply g_language; eauto with mono.
Qed.
Hint Resolve m_G_language : mono.
Lemma m_G_disposition t a : @G_disposition F t a -> @G_disposition F' t a.
Proof.
  intros H. destruct H.
  - eapply g_disposition; eauto with mono.
Qed.
Hint Resolve m_G_disposition : mono.
Lemma m_G_single_ext t a : @G_single_ext F t a -> @G_single_ext F' t a.
Proof.
  intros H. destruct H.
  - eapply g_single_ext; eauto with mono.
Qed.
Hint Resolve m_G_single_ext : mono.
Lemma m_G_multi_ext t a : @G_multi_ext F t a -> @G_multi_ext F' t a.
Proof.
  intros H. destruct H.
  - eapply g_multi_ext; eauto with mono.
Qed.
Hint Resolve m_G_multi_ext : mono.
Definition m_body : forall d t a, @G_body F d t a -> @G_body F' d t a.
Proof.
  fix IH 4. intros d t a H. destruct H as [| | | d t l ts sub tx x A].
  - eapply g_body_basic; eauto with mono.
  - eapply g_body_text; eauto with mono.
  - eapply g_body_message; [assumption | eauto with mono | eauto with mono | apply IH; assumption | eauto with mono ..].
  - eapply g_body_multi; [| eauto with mono ..]. exact (match A with conj x y => conj (many_mono _ _ (IH d) _ _ x) y end).
Defined.
Hint Resolve m_body : mono.
Lemma m_G_msg_att t a : @G_msg_att F t a -> @G_msg_att F' t a.
Proof.
  intros H. destruct H.
  - eapply g_ma_flags; eauto with mono.
  - eapply g_ma_modseq; eauto with mono.
  - eapply g_ma_envelope; eauto with mono.
  - eapply g_ma_date; eauto with mono.
  - eapply g_ma_header; eauto with mono.
  - eapply g_ma_text; eauto with mono.
  - eapply g_ma_size; eauto with mono.
  - eapply g_ma_rfc822; eauto with mono.
  - eapply g_ma_bodystructure; eauto with mono.
  - eapply g_ma_body; eauto with mono.
  - eapply g_ma_body_ext; eauto with mono.
  - eapply g_ma_uid; eauto with mono.
  - eapply g_ma_binary; eauto with mono.
  - eapply g_ma_binary_size; eauto with mono.
Qed.
Hint Resolve m_G_msg_att : mono.
Lemma m_G_namespace_ext t a : @G_namespace_ext F t a -> @G_namespace_ext F' t a.
Proof.
  intros H. destruct H.
  - eapply g_ns_ext; eauto with mono.
Qed.
Hint Resolve m_G_namespace_ext : mono.
Lemma m_G_namespace_descr t a : @G_namespace_descr F t a -> @G_namespace_descr F' t a.
Proof.
  intros H. destruct H.
  - eapply g_ns_descr; eauto with mono.
Qed.
Hint Resolve m_G_namespace_descr : mono.
Lemma m_G_namespace t a : @G_namespace F t a -> @G_namespace F' t a.
Proof.
  intros H. destruct H.
  - eapply g_ns_nil; eauto with mono.
  - eapply g_ns; eauto with mono.
Qed.
Hint Resolve m_G_namespace : mono.
Lemma m_quota_space t : @G_quota_space F t -> @G_quota_space F' t.
Proof. unfold G_quota_space. eauto with mono. Qed.
Hint Resolve m_quota_space : mono.
Lemma m_G_quota_get t a : @G_quota_get F t a -> @G_quota_get F' t a.
Proof.
  intros H. destruct H.
  - eapply g_quota_get; eauto with mono.
Qed.
Hint Resolve m_G_quota_get : mono.
Lemma m_G_modseq_result t a : @G_modseq_result F t a -> @G_modseq_result F' t a.
Proof.
  intros H. destruct H.
  - eapply g_no_modseq; eauto with mono.
  - eapply g_modseq; eauto with mono.
Qed.
Hint Resolve m_G_modseq_result : mono.
Lemma m_capabilities t l : @G_capabilities F t l -> exists l', @G_capabilities F' t l' /\ Forall2 (learn_capability F') l l'.
Proof.
  intros [k u l' z K S Z]. destruct (sep_relate _ _ _ _ _ _ m_capability S) as (l2 & S2 & R). exists l2.
  split; [constructor; eauto with mono | exact R].
Qed.
Lemma m_mailbox_list k f t d : @G_mailbox_list F k f t d -> @G_mailbox_list F' k f t d.
Proof. intros (k' & tf & fl & td & de & tm & m & H1 & H2 & H3 & H4 & H5 & H6). exists k', tf, fl, td, de, tm, m. eauto 10 with mono. Qed.
Hint Resolve m_mailbox_list : mono.
Lemma after_enable t a : after (bs " ") (@G_enable_name F) t a -> exists a', after (bs " ") (@G_enable_name F') t a' /\ learn_enable F' a a'.
Proof. intros [u b X]. destruct (m_enable_name _ _ X) as (b' & Y & R). exists b'. split; [now constructor | exact R]. Qed.
Lemma m_data t d : @G_data F t d -> exists d', @G_data F' t d' /\ learn_data F' d d'.
Proof.
  intros H. destruct H.
  - match goal with X : G_capabilities _ _ |- _ => destruct (m_capabilities _ _ X) as (l' & S & R) end. exists (DCapability l'). split; [now apply g_data_capability | now constructor].
  - eexists; split; [eapply g_data_flags; eauto with mono | constructor].
  - eexists; split; [eapply g_data_list; eauto with mono | constructor].
  - eexists; split; [eapply g_data_lsub; eauto with mono | constructor].
  - eexists; split; [eapply g_data_search; eauto with mono | constructor].
  - eexists; split; [eapply g_data_sort; eauto with mono | constructor].
  - eexists; split; [eapply g_data_thread_none; eauto with mono | constructor].
  - eexists; split; [eapply g_data_thread; eauto with mono | constructor].
  - eexists; split; [eapply g_data_status; eauto with mono | constructor].
  - eexists; split; [eapply g_data_metadata_values; eauto with mono | constructor].
  - eexists; split; [eapply g_data_metadata; eauto with mono | constructor].
  - eexists; split; [eapply g_data_namespace; eauto with mono | constructor].
  - eexists; split; [eapply g_data_exists; eauto with mono | constructor].
  - eexists; split; [eapply g_data_recent; eauto with mono | constructor].
  - eexists; split; [eapply g_data_expunge; eauto with mono | constructor].
  - eexists; split; [eapply g_data_fetch; eauto with mono | constructor].
  - eexists; split; [eapply g_data_vanished; eauto with mono | constructor].
  - eexists; split; [eapply g_data_vanished_earlier; eauto with mono | constructor].
  - eexists; split; [eapply g_data_quotaroot; eauto with mono | constructor].
  - eexists; split; [eapply g_data_quota; eauto with mono | constructor].
  - match goal with X : many _ _ _ |- _ => destruct (many_relate _ _ _ _ _ after_enable X) as (l' & S & R) end. exists (DEnabled l'). split; [now apply g_data_enabled | now constructor].
  - eexists; split; [eapply g_data_id; eauto with mono | constructor].
Qed.
Lemma m_code_words : incl (@code_words F) (@code_words F').
Proof. tables. Qed.
Hint Resolve m_code_words : mono.
Lemma m_code_numbers : incl (@code_numbers F) (@code_numbers F').
Proof. tables. Qed.
Hint Resolve m_code_numbers : mono.
Lemma m_known_code t c : @G_known_code F t c -> exists c', @G_known_code F' t c' /\ learn_code F' c c'.
Proof.
  intros H. destruct H.
  - eexists; split; [eapply g_code_word; eauto with mono | constructor].
  - eexists; split; [eapply g_code_number; eauto with mono | constructor].
  - eexists; split; [eapply g_code_badcharset; eauto with mono | constructor].
  - match goal with X : G_capabilities _ _ |- _ => destruct (m_capabilities _ _ X) as (l' & S & R) end. exists (CdCapability l'). split; [now apply g_code_capability | now constructor].
  - eexists; split; [eapply g_code_permanentflags; eauto with mono | constructor].
  - eexists; split; [eapply g_code_appenduid; eauto with mono | constructor].
  - eexists; split; [eapply g_code_copyuid; eauto with mono | constructor].
  - eexists; split; [eapply g_code_modified; eauto with mono | constructor].
Qed.
Lemma m_G_text_after_code t a : @G_text_after_code F t a -> @G_text_after_code F' t a.
Proof.
  intros H. destruct H.
  - eapply g_tac_text; eauto with mono.
  - eapply g_tac_missing; eauto with mono.
Qed.
Hint Resolve m_G_text_after_code : mono.
(** Codes that only the grammar with more features knows have no bracket in them. *)
Definition no_bracket (t : bytes) : Prop := ~ In "]"%byte t.
Lemma nb_app a b : no_bracket a -> no_bracket b -> no_bracket (a ++ b).
Proof. unfold no_bracket. rewrite in_app_iff. tauto. Qed.
Lemma nb_letters t s : same_letters t s -> no_bracket s -> no_bracket t.
Proof.
  intros H N I. apply N. clear N. induction H as [| a b t s E H IH]; [exact I |]. destruct I as [-> | I]; [left | right; now apply IH].
  apply same_letter_spec in E. destruct b; try discriminate E; reflexivity.
Qed.
Lemma nb_some P t : some_of P t -> ~ P "]"%byte -> no_bracket t.
Proof. intros [_ H] N I. rewrite Forall_forall in H. now apply N, H. Qed.
Ltac nbc := let H := fresh in intros H; cbn in H; repeat (destruct H as [H | H]; [discriminate H |]); destruct H.
Lemma nb_atom t : some_of ATOM_CHAR t -> no_bracket t.
Proof. intros H. apply (nb_some _ _ H). intros [_ X]. apply X. unfold atom_specials, resp_specials. tauto. Qed.
Lemma nb_word {A} (T : list (bytes * A)) t a : word T t a -> Forall (fun p => no_bracket (fst p)) T -> no_bracket t.
Proof. intros [u s b I E] H. rewrite Forall_forall in H. exact (nb_letters _ _ E (H _ I)). Qed.
Lemma nb_name {A} (T : list (bytes * A)) o t a : name T o t a -> Forall (fun p => no_bracket (fst p)) T -> no_bracket t.
Proof. intros [u s b I E | u H N] G; [rewrite Forall_forall in G; exact (nb_letters _ _ E (G _ I)) | now apply nb_atom]. Qed.
Lemma nb_digits t n : digits t n -> no_bracket t.
Proof. induction 1 as [| s n b D IH B]; [intros [] |]. apply nb_app; [exact IH |]. intros [-> | []]. revert B. cbn. lia. Qed.
Lemma nb_sep {A} sep (L : lang A) t l : no_bracket sep -> (forall t a, L t a -> no_bracket t) -> sep_by sep L t l -> no_bracket t.
Proof. intros N H S. induction S as [t a h | t a u l h S IH]; [exact (H _ _ h) |]. repeat apply nb_app; [exact (H _ _ h) | exact N | exact IH]. Qed.
Lemma forall_when {A} (P : A -> Prop) b l : Forall P l -> Forall P (when b l).
Proof. destruct b; [tauto | constructor]. Qed.
Ltac nbt := repeat (apply Forall_app; split); try apply forall_when; repeat (apply Forall_cons; [cbn [fst]; nbc |]); try apply Forall_nil.
Lemma nb_seq t s : G_sequence_set t s -> no_bracket t.
Proof.
  assert (Q : forall u a, G_seq_number u a -> no_bracket u).
  { intros u a [v n ((_ & D & _) & _) |]; [exact (nb_digits _ _ D) | nbc]. }
  apply nb_sep; [nbc |]. intros u a [v x X | v x w y X Y]; [exact (Q _ _ X) |]. repeat apply nb_app; [exact (Q _ _ X) | nbc | exact (Q _ _ Y)].
Qed.
Lemma nb_capability t c : @G_capability F' t c -> no_bracket t.
Proof.
  assert (W : forall u k, same_letters u (bs k) -> no_bracket (bs k) -> no_bracket u) by (intros u k; apply nb_letters).
  intros [u a K | u A N]; [| now apply nb_atom]. destruct K as [u a X | k u m K X | k u K X | k u x K X | k u x K X | k x r u v a K X R N E V G].
  - apply (nb_word _ _ _ X). unfold capability_table. nbt.
  - apply nb_app; [apply (nb_letters _ _ K); nbc | apply (nb_name _ _ _ _ X); unfold auth_table; nbt].
  - apply nb_app; [apply (nb_letters _ _ K); nbc | apply (nb_letters _ _ X); nbc].
  - apply nb_app; [apply (nb_letters _ _ K); nbc | apply (nb_name _ _ _ _ X); unfold sort_algorithm_table; nbt].
  - apply nb_app; [apply (nb_letters _ _ K); nbc | apply (nb_name _ _ _ _ X); unfold thread_table; nbt].
  - repeat apply nb_app; [apply (nb_letters _ _ K); nbc | | apply (nb_letters _ _ R); nbc | apply (nb_letters _ _ E), (nb_name _ _ _ _ G); unfold resource_table; nbt].
    intros I. unfold many_of in X. rewrite Forall_forall in X. destruct (X _ I) as [_ Z]. apply Z. unfold atom_specials, resp_specials. tauto.
Qed.
Lemma new_code t c : @G_known_code F' t c -> no_bracket t \/ @G_known_code F t c.
Proof.
  intros [u a W | k L f u n W X | k u l K X | u l X | k u l K X | k tv v tu w K X Y | k tv v ts s td d K X Y Z | k u s Q K X].
  - left. apply (nb_word _ _ _ W). unfold code_words. nbt.
  - left. assert (D : exists m, digits u m).
    { inversion W as [k' s' a I E]; subst. unfold code_numbers in I. repeat (apply in_app_or in I as [I | I]).
      all: unfold when in I; repeat match type of I with context [if ?b then _ else _] => destruct b end; cbn in I.
      all: repeat (destruct I as [I | I]; [injection I as <- <- <-; first [destruct X as (_ & X & _) | destruct X as ((_ & X & _) & _)]; eauto |]); destruct I. }
    destruct D as (m & D). apply nb_app; [apply (nb_word _ _ _ W); unfold code_numbers; nbt | exact (nb_digits _ _ D)].
  - right. now apply g_code_badcharset.
  - left. destruct X as [k w l' z K S Z]. repeat apply nb_app; [apply (nb_letters _ _ K); nbc | refine (nb_sep _ _ _ _ _ nb_capability S); nbc |].
    destruct Z as [-> | [_ ->]]; nbc.
  - right. now apply g_code_permanentflags.
  - right. now apply g_code_appenduid.
  - right. now apply g_code_copyuid.
  - left. apply nb_app; [apply (nb_letters _ _ K); nbc | exact (nb_seq _ _ X)].
Qed.
Lemma bracket_split (a b u v : bytes) : no_bracket a -> no_bracket b -> a ++ "]"%byte :: u = b ++ "]"%byte :: v -> a = b.
Proof.
  revert b. induction a as [| x a IH]; intros [| y b] A B E; [reflexivity | | |].
  - injection E as <- _. exfalso. apply B. now left.
  - injection E as -> _. exfalso. apply A. now left.
  - injection E as -> E. f_equal. apply IH; [intros I; apply A; now right | intros I; apply B; now right | exact E].
Qed.
Lemma m_resp_text t c x : @G_resp_text F t (c, x) -> exists c', @G_resp_text F' t (c', x) /\ learn_opt_code F' c c'.
Proof.
  intros H. inversion H as [u S N | u a v y K X | u v y C X N]; subst.
  - exists None. split; [now constructor | constructor].
  - destruct (m_known_code _ _ K) as (a' & K' & R). exists (Some a'). split; [constructor; auto with mono | now constructor].
  - assert (Nu : no_bracket u). { intros I. unfold many_of in C. rewrite Forall_forall in C. now destruct (C _ I) as [Z _]. }
    assert (D : forall w a r, u ++ bs "]" ++ v = w ++ "]"%byte :: r -> @G_known_code F' w a -> w = u).
    { intros w a r E K. destruct (new_code _ _ K) as [Nw | K']; [symmetry; exact (bracket_split _ _ _ _ Nu Nw E) | exfalso; exact (N w r a E K')]. }
    assert (Q : (exists r a, @code_end F' (u ++ bs "]" ++ v) = ROk r a) \/ (forall r a, @code_end F' (u ++ bs "]" ++ v) <> ROk r a)).
    { destruct (@code_end F' (u ++ bs "]" ++ v)); [left; eauto | right; discriminate ..]. }
    destruct Q as [(r & a & E) | E].
    + apply code_end_inv in E as (w & E & K). pose proof (D w a r E K) as ->. exists (Some a). split; [constructor; auto with mono | constructor; now apply lk_other].
    + exists (Some (CdOther u)). split; [| constructor; constructor]. apply g_rt_other; [exact C | auto with mono |].
      intros w r a X' K. apply (E r a). rewrite X'. now apply code_end_go.
Qed.

Lemma m_greeting t g : @G_greeting F t g -> exists g', @G_greeting F' t g' /\ learn_greeting F' g g'.
Proof.
  intros [k kind u c x e W X E]. destruct (m_resp_text _ _ _ X) as (c' & X' & R). exists (mkGreeting kind c' x).
  split; [constructor; auto with mono | now constructor].
Qed.
Lemma m_status_body t b : @G_status_body F t b -> exists b', @G_status_body F' t b' /\ learn_body F' b b'.
Proof.
  intros [k kind u c x W X]. destruct (m_resp_text _ _ _ X) as (c' & X' & R). exists (mkStatusBody kind c' x).
  split; [constructor; auto with mono | now constructor].
Qed.
Lemma m_response t r : @G_response F t r -> exists r', @G_response F' t r' /\ learn_response F' r r'.
Proof.
  intros [u c x e X N E | u p e X E | e Q E | u d e X E | u b e X E | tt tag u b e T X E | k u c x e K X E].
  - destruct (m_resp_text _ _ _ X) as (c' & X' & R). eexists. split; [apply g_rsp_continue; eauto with mono | now constructor].
  - eexists. split; [apply g_rsp_base64; eauto with mono | constructor].
  - eexists. split; [apply g_rsp_empty; auto with mono | repeat constructor].
  - destruct (m_data _ _ X) as (d' & X' & R). eexists. split; [apply g_rsp_data; eauto with mono | now constructor].
  - destruct (m_status_body _ _ X) as (b' & X' & R). eexists. split; [apply g_rsp_untagged; eauto with mono | now constructor].
  - destruct (m_status_body _ _ X) as (b' & X' & R). eexists. split; [apply g_rsp_tagged; eauto with mono | now constructor].
  - destruct (m_resp_text _ _ _ X) as (c' & X' & R). eexists. split; [apply g_rsp_bye; eauto with mono | now constructor].
Qed.
End More.
