(** The rules of AbnfSpec.v and the relations of Grammar.v: responses. *)

From Verif Require Import Bytes BytesFacts Features Nom Types Utf8 Conv ValueSpec ValueFacts Grammar SoundCap MoreFacts NameFacts
  AbnfSpec AbnfFacts AbnfCore AbnfCmd AbnfBody.
Open Scope N_scope.
Open Scope abnf_scope.

Section Responses.
Context {F : features}.
Local Notation D := (derives true true).
Ltac rule := apply R_ref; intros t; cbn [rules]; split.
Ltac gist := first [eassumption | inword | kw].
Ltac done := rewrite <- ?app_assoc; eexists; solve [econstructor; gist].
Ltac down := intros [v H]; inversion H; subst; norm; wordcases; kwsplit; norm; try build.
Ltac joinsp := repeat match goal with H : same_letters ?x ?s |- context [?x ++ ?sp ++ ?r] =>
  unify sp (bs " "); rewrite (app_assoc x sp r);
  let J := fresh "J" in assert (J : same_letters (x ++ sp) (s ++ bs " ")) by (apply letters_app; [exact H | now apply letters_fixed]);
  let s' := eval cbv in (s ++ bs " ") in change (s ++ bs " ") with s' in J;
  clear H end.
Ltac done' := rewrite <- ?app_assoc, ?app_nil_l, ?app_nil_r; joinsp; eexists; solve [econstructor; gist].
Ltac halve H a b := match type of H with same_letters _ ?s => change s with (bs a ++ bs b) in H end;
  let u := fresh "k" in let v := fresh "k" in let U := fresh "K" in
  apply letters_split in H; destruct H as (u & v & -> & U & H).
Ltac via c := eexists; eapply text_is; [eapply c; first [eassumption | kw] | text].

(** ** Fetch results *)
#[global] Instance flag_fetch_rule : R FlagFetch G_flag_fetch.
Proof.
  rule.
  - intros H. assert (W : t ~ "\Recent" \/ ~ t ~ "\Recent").
    { rewrite same_letters_spec. destruct (list_eq_dec Byte.byte_eq_dec (lowers t) (lowers (bs "\Recent"))); auto. }
    destruct W as [W | W]; [eexists; now apply g_ff_recent |].
    orcases H; dinv; [eexists; eapply g_ff_flag; eassumption | contradiction].
  - intros [v H]. inversion H; subst; build.
Qed.
#[global] Instance flag_perm_rule : R FlagPerm G_flag_perm.
Proof.
  rule.
  - intros H. orcases H; dinv; eexists; econstructor; eassumption.
  - intros [v H]. inversion H; subst; build.
Qed.
#[global] Instance uniqueid_rule : R Uniqueid G_nz_number. Proof. apply R_ref. exact nz_number_rule. Qed.
#[global] Instance append_uid_rule : R AppendUid G_nz_number. Proof. apply R_ref. exact uniqueid_rule. Qed.
#[global] Instance origin_rule : R ("<" ^ Number ^ ">") G_origin.
Proof. intros t. split. - intros H. apply D_cat in H as (? & ? & -> & ? & ?). dinv. done. - down. Qed.
#[global] Instance nstring8_rule : R (Nstring / Literal8) G_nstring8.
Proof. intros t. split. - intros H. apply D_or in H as [H | H]; dinv; done. - down. Qed.
#[global] Instance msg_att_rule : R (MsgAttDynamic / MsgAttStatic) G_msg_att.
Proof.
  intros t. split.
  - intros H. apply D_or in H as [H | H]; apply D_ref in H; cbn [rules] in H; orcases H.
    + dinv. via g_ma_flags.
    + dinv. via g_ma_modseq.
    + dinv. via g_ma_envelope.
    + dinv. via g_ma_date.
    + apply D_cat in H as (k & w & -> & K & H). apply D_str in K. apply D_cat in H as (k' & w' & -> & K' & H).
      apply D_or in K' as [K' | K']; [| apply D_or in K' as [K' | K']]; dinv.
      * via g_ma_rfc822.
      * eexists. eapply text_is; [eapply (g_ma_header (k ++ k' ++ bs " ")); [| eassumption] | text].
        eapply letters_join; [exact K | eapply letters_join; [exact K' | now apply (letters_fixed (bs " ")) | reflexivity] | reflexivity].
      * eexists. eapply text_is; [eapply (g_ma_text (k ++ k' ++ bs " ")); [| eassumption] | text].
        eapply letters_join; [exact K | eapply letters_join; [exact K' | now apply (letters_fixed (bs " ")) | reflexivity] | reflexivity].
    + dinv. via g_ma_size.
    + apply D_cat in H as (k & w & -> & K & H). apply D_str in K. apply D_cat in H as (k' & w' & -> & K' & H).
      apply D_or in K' as [K' | K']; dinv.
      * via g_ma_body.
      * eexists. eapply text_is; [eapply (g_ma_bodystructure (k ++ k' ++ bs " ")); [| eassumption] | text].
        eapply letters_join; [exact K | eapply letters_join; [exact K' | now apply (letters_fixed (bs " ")) | reflexivity] | reflexivity].
    + dinv. via g_ma_body_ext.
    + dinv. via g_ma_uid.
    + dinv. via g_ma_binary.
    + dinv. via g_ma_binary_size.
  - intros [v H]. inversion H; subst; kwsplit; norm; try (build; fail).
    all: match goal with H : same_letters _ _ |- _ =>
      first [halve H "RFC822"%bytestr ".HEADER"%bytestr | halve H "RFC822"%bytestr ".TEXT"%bytestr | halve H "BODY"%bytestr "STRUCTURE"%bytestr] end.
    all: norm; build.
Qed.

(** ** Data *)
Definition G_capability_rule : R Capability G_capability.
Proof.
  intros t. rewrite (spec Capability). unfold G_enable_name. rewrite name_atom by (unfold enable_table; now destruct ext_condstore_qresync, ext_metadata, ext_utf8).
  split; [intros H; eexists; now apply capability_sound | intros [c H]; now apply capability_complete in H].
Qed.
Lemma capability_rev1 t : t ~ "IMAP4rev1" -> D Capability t.
Proof. intros H. apply l_ref. cbn [rules]. apply d_or_r. apply atom_rule'. eapply letters_atom; [exact H | reflexivity]. Qed.
Lemma many_app a t u : D (Many a) t -> D (Many a) u -> D (Many a) (t ++ u).
Proof.
  intros H G. remember (Many a) as m. induction H; try discriminate; injection Heqm as ->; [exact G |].
  rewrite <- app_assoc. apply d_more; auto.
Qed.
#[global] Instance capabilities_rule : R CapabilityData G_capabilities.
Proof.
  rule.
  - intros H.
    assert (W : exists z, stray_space quirk_trailing_space_capability z /\ exists k u, t = k ++ u ++ z /\ k ~ "CAPABILITY" /\ D (some (SP ^ Capability)) u).
    { orcases H.
      - exists []. split; [now left |]. apply D_cat in H as (k & w & -> & K & H). apply D_cat in H as (a & w1 & -> & A & H).
        apply D_cat in H as (sp & w2 & -> & S & H). apply D_cat in H as (r & w3 & -> & C & H). apply D_str in K, S, C. fixed S.
        exists k, (a ++ bs " " ++ r ++ w3). rewrite app_nil_r. split; [reflexivity |]. split; [exact K |].
        assert (V : D (SP ^ Capability) (bs " " ++ r)) by (apply d_cat; [now apply D_str, letters_fixed | now apply capability_rev1]).
        apply D_many in A as [-> | (x & y & -> & X & Y)].
        + rewrite app_nil_l, app_assoc. now apply d_cat.
        + rewrite <- app_assoc. apply d_cat; [exact X |]. rewrite (app_assoc (bs " ")). apply many_app; [exact Y |]. now apply d_more.
      - exists []. split; [now left |]. apply (proj1 (D_extra_t _ _)) in H. apply D_cat in H as (k & u & -> & K & H). apply D_str in K.
        exists k, u. rewrite app_nil_r. auto.
      - exists (bs " "). apply (proj1 (D_extra_t _ _)) in H. apply D_feature in H as [Q H]. split; [right; auto |].
        apply D_cat in H as (k & w & -> & K & H). apply D_cat in H as (u & z & -> & H & Z). apply D_str in K, Z. fixed Z. eauto. }
    clear H. destruct W as (z & Z & k & u & -> & K & H). apply (I_some _ _ G_capability_rule) in H as [l H]. inversion H as [w l' L]; subst.
    exists l. rewrite <- app_assoc, (app_assoc k). apply g_capabilities; [| assumption | assumption].
    eapply letters_join; [exact K | now apply (letters_fixed (bs " ")) | reflexivity].
  - intros [l H]. inversion H as [k u l' z K L Z]; subst. change (bs "CAPABILITY ") with (bs "CAPABILITY" ++ bs " ") in K.
    apply letters_split in K as (k1 & k2 & -> & K & K2). apply (letters_fixed (bs " ") eq_refl) in K2 as ->.
    assert (G : D (some (SP ^ Capability)) (bs " " ++ u)) by (apply (I_some _ _ G_capability_rule); exists l; now constructor).
    rewrite <- app_assoc. destruct Z as [-> | [Q ->]].
    + rewrite app_nil_r. apply d_or_l, d_or_r, l_extra. apply d_cat; [now apply D_str | exact G].
    + apply d_or_r, l_extra, d_feature; [exact Q |]. rewrite (app_assoc (bs " ")). apply d_cat; [now apply D_str |].
      apply d_cat; [exact G | now apply D_str, letters_fixed].
Qed.
#[global] Instance quoted_char_rule : R (DQUOTE ^ QuotedChar ^ DQUOTE) G_quoted_char.
Proof.
  intros t. split.
  - intros H. apply D_cat in H as (o & w & -> & O & H). apply D_cat in H as (u & c & -> & H & C). apply D_str in O, C. fixed O. fixed C.
    apply D_ref in H. cbn [rules] in H. apply D_or in H as [H | H].
    + apply D_chr in H as (b & -> & T & Q). exists b. apply (g_qc b [b]); [exact T |]. apply qb_plain; [exact Q | constructor].
    + apply D_cat in H as (x & y & -> & X & Y). apply D_str in X. fixed X. apply D_chr in Y as (b & -> & Q). exists b.
      apply (g_qc b ["\"%byte; b]); [| apply qb_escaped; [exact Q | constructor]].
      unfold TEXT_CHAR, CHAR. destruct Q as [B | B]; rewrite B; (split; [lia |]); split; intros ->; discriminate.
  - intros [b H]. inversion H as [b' w T Q]; subst. apply d_cat; [now apply D_str, letters_fixed |]. apply d_cat; [| now apply D_str, letters_fixed].
    apply l_ref. cbn [rules]. inversion Q as [| b' w' s N Q' | b' w' s N Q']; subst; inversion Q'; subst.
    + apply d_or_l. now constructor.
    + apply d_or_r. change ["\"%byte; b] with (bs "\" ++ [b]). apply d_cat; [now apply D_str, letters_fixed | now constructor].
Qed.
#[global] Instance delimiter_rule : R (DQUOTE ^ QuotedChar ^ DQUOTE / Nil) G_delimiter.
Proof.
  intros t. split. - intros H. apply D_or in H as [H | H]; dinv; done. - intros [v H]. inversion H; subst; [build |].
    apply d_or_r. apply (spec Nil). now exists tt.
Qed.
#[global] Instance strings_rule : R ("(" ^ (String_ ^ Many (SP ^ String_)) ^ ")") (in_parens (sep_by (bs " ") G_string)) | 0.
Proof. exact (I_parens _ _ _). Qed.
#[global] Instance ns_ext_rule : R NamespaceResponseExtension G_namespace_ext.
Proof. rule. - intros H. dinv. done. - down. Qed.
#[global] Instance ns_descr_rule : R NamespaceDescr G_namespace_descr.
Proof. rule. - intros H. dinv. done. - down. Qed.
#[global] Instance namespaces_rule : R Namespaces G_namespace.
Proof.
  rule. - intros H. orcases H; dinv; done. - intros [v H]. inversion H; subst; [| build]. apply d_or_l. apply (spec Nil). now exists tt.
Qed.
#[global] Instance resource_usage_rule : R ResourceUsage G_number64. Proof. apply R_ref. exact number64_rule. Qed.
#[global] Instance quota_get_rule : R QuotaResource G_quota_get.
Proof.
  rule.
  - intros H. orcases H.
    + dinv. eexists. eapply g_quota_get; try eassumption; now left.
    + apply (proj1 (D_extra_t _ _)) in H. apply D_feature in H as [Q H]. apply D_cat in H as (a & w & -> & A & H).
      apply D_cat in H as (b & w1 & -> & B & H). apply D_cat in H as (c & w2 & -> & C & H). apply D_cat in H as (d & e & -> & E & H).
      apply some_spaces_rule in B, E. dinv. eexists. eapply g_quota_get; try eassumption; right; auto.
  - intros [v H]. inversion H as [tr r s1 tu u s2 tl l A S1 B S2 C]; subst.
    assert (W : (s1 = bs " " /\ s2 = bs " ") \/ (quirk_excessive_space_quota_resource = true /\ some_of (eq bSP) s1 /\ some_of (eq bSP) s2)).
    { assert (E : some_of (eq bSP) (bs " ")) by (split; [discriminate | repeat constructor]).
      destruct S1 as [-> | [Q S1]], S2 as [-> | [Q' S2]]; auto. }
    destruct W as [[-> ->] | (Q & W1 & W2)]; [build |].
    apply d_or_r, l_extra, d_feature; [exact Q |]. apply some_spaces_rule in W1, W2.
    apply d_cat; [build |]. apply d_cat; [exact W1 |]. apply d_cat; [build |]. apply d_cat; [exact W2 |]. build.
Qed.
#[global] Instance quota_list_rule : R QuotaList (in_parens (sep_by (bs " ") G_quota_get)).
Proof. apply R_ref. exact (I_parens _ _ _). Qed.
#[global] Instance entry_list_rule : R EntryList (sep_by (bs " ") G_astring).
Proof. apply R_ref. exact (I_sep _ _ _). Qed.
Lemma thread_rule_of n (L : nat -> Prop) :
  (forall m, n = S m -> R (ThreadList m) (G_thread m)) -> R (ThreadList n) (G_thread n).
Proof.
  intros IH. rule.
  - intros H. apply D_cat in H as (o & w & -> & O & H). apply D_cat in H as (u & c & -> & H & C). apply D_str in O, C. fixed O. fixed C.
    apply D_or in H as [H | H]; apply D_ref in H; cbn [rules] in H.
    + apply D_cat in H as (v & x & -> & H & X). apply (spec (NzNumber ^ Many (SP ^ NzNumber))) in H as [l H].
      apply D_or in X as [X | X].
      * apply D_eps in X as ->. rewrite app_nil_r. eexists. eapply g_thread_flat; eassumption.
      * apply D_cat in X as (sp & y & -> & S & X). apply D_str in S. fixed S. apply D_ref in X. cbn [rules] in X.
        destruct n as [| m]; cbn [deeper] in X; [dinv |]. specialize (IH m eq_refl). dinv. norm. eexists. eapply g_thread_split; eassumption.
    + destruct n as [| m]; cbn [deeper] in H; [dinv |]. specialize (IH m eq_refl). dinv. eexists. eapply g_thread_nested; eassumption.
  - intros [v H]. inversion H; subst; try specialize (IH _ eq_refl); norm.
    + build.
    + apply d_cat; [build |]. apply c_or_l, c_ref. cbn [rules]. apply c_assoc, d_cat; [build |]. apply c_or_r, c_assoc, d_cat; [build |].
      apply c_ref. cbn [rules deeper]. apply d_cat; [| build]. apply (spec (ThreadList d ^ some (ThreadList d))). eauto.
    + apply d_cat; [build |]. apply c_or_r, c_ref. cbn [rules deeper]. apply d_cat; [| build].
      apply (spec (ThreadList d ^ some (ThreadList d))). eauto.
Qed.
#[global] Instance thread_list_rule n : R (ThreadList n) (G_thread n).
Proof.
  induction n as [| n IH]; apply (thread_rule_of _ (fun _ => True)); intros m E; [discriminate |]. injection E as <-. exact IH.
Qed.
#[global] Instance uid_element_rule : R (Uniqueid / UidRange) G_uid_element.
Proof. intros t. split. - intros H. apply D_or in H as [H | H]; dinv; done. - down. Qed.
#[global] Instance uid_set_rule : R UidSet G_uid_set.
Proof. apply R_ref. exact (I_comma _ _ _). Qed.
Lemma flag_extension_rule t : D FlagExtension t <-> exists v, G_flag_name t v.
Proof.
  rewrite D_ref. cbn [rules]. rewrite D_cat. unfold G_flag_name. split.
  - intros (u & v & -> & H & G). apply D_str in H. fixed H. apply atom_rule' in G.
    apply (name_atom flag_name_table FNExtension v eq_refl) in G as [a G]. exists a. now constructor.
  - intros [a H]. inversion H as [u a' G]; subst. exists (bs "\"), u. repeat split; [now apply D_str, letters_fixed |].
    apply atom_rule', (name_atom flag_name_table FNExtension u eq_refl). eauto.
Qed.
Lemma backslash_atom w t : atom_ok w = true -> same_letters t (bs "\" ++ w) -> D FlagExtension t.
Proof.
  intros A H. apply letters_split in H as (u & v & -> & H & G). apply l_ref. cbn [rules]. apply d_cat; [now apply D_str |].
  apply atom_rule'. eapply letters_atom; eassumption.
Qed.
#[global] Instance oflag_rule : R MbxListOflag G_flag_name.
Proof.
  apply R_ref. intros t. cbn [rules]. rewrite D_or, <- flag_extension_rule, D_str. split; [| auto].
  intros [H | H]; [now apply (backslash_atom (bs "Noinferiors")) | exact H].
Qed.
Lemma sflag_oflag t : D MbxListSflag t -> D MbxListOflag t.
Proof.
  intros H. apply D_ref in H. cbn [rules] in H. apply l_ref. cbn [rules]. apply d_or_r. orcases H; apply D_str in H.
  - now apply (backslash_atom (bs "Noselect")).
  - now apply (backslash_atom (bs "Marked")).
  - now apply (backslash_atom (bs "Unmarked")).
Qed.
(** [*(a SP) a *(SP a)] is [a *(SP a)] *)
Lemma shift_sep a t u : D (Many (a ^ SP)) t -> D (a ^ Many (SP ^ a)) u -> D (a ^ Many (SP ^ a)) (t ++ u).
Proof.
  intros H. revert u. remember (Many (a ^ SP)) as m. induction H; try discriminate; injection Heqm as ->; intros w G; [exact G |].
  rewrite <- app_assoc. specialize (IHderives2 eq_refl w G). apply D_cat in H as (x & y & -> & X & Y).
  apply D_cat in IHderives2 as (x' & y' & E & X' & Y'). rewrite E, <- app_assoc. apply d_cat; [exact X |]. rewrite app_assoc.
  apply d_more; [| exact Y']. now apply d_cat.
Qed.
#[global] Instance mbx_list_flags_rule : R (opt MbxListFlags) (list_of (bs " ") G_flag_name) | 0.
Proof.
  intros t. rewrite <- (R_list MbxListOflag (bs " ") _ oflag_rule eq_refl t). unfold opt. rewrite !D_or, D_ref. cbn [rules]. rewrite D_or. split.
  - intros [H | [H | H]]; [now left | | now right]. right. apply D_cat in H as (u & v & -> & H & G). apply shift_sep; [exact H |].
    apply D_cat in G as (x & y & -> & X & Y). apply d_cat; [now apply sflag_oflag | exact Y].
  - intros [H | H]; auto.
Qed.
Definition G_mbx_list : lang (list flag_name_attribute * option byte * mailbox) := fun t v =>
  exists tf td tm, t = tf ++ bs " " ++ td ++ bs " " ++ tm /\ in_parens (list_of (bs " ") G_flag_name) tf (fst (fst v)) /\
    G_delimiter td (snd (fst v)) /\ G_mailbox tm (snd v).
#[global] Instance mailbox_list_rule : R MailboxList G_mbx_list.
Proof.
  rule.
  - intros H. dinv. match goal with P : list_of _ _ ?tf ?fl, Q : G_delimiter ?td ?de, Q' : G_mailbox ?tm ?m |- _ =>
      exists (fl, de, m), (bs "(" ++ tf ++ bs ")"), td, tm end.
    split; [norm; reflexivity |]. cbn [fst snd]. split; [constructor; eassumption | auto].
  - intros [v (tf & td & tm & -> & H & G & K)]. inversion H; subst. norm. build.
Qed.
#[global] Instance status_val_rule : R StatusAttVal G_status_val.
Proof.
  rule.
  - intros H. orcases H; dinv.
    all: rewrite app_assoc; eexists; eapply (g_status_val _ _ _ _ _); [| eassumption].
    all: unfold status_val_table; try match goal with Q : ext_condstore_qresync = true |- _ => rewrite Q end; cbn [when app].
    all: match goal with H : same_letters ?x ?s |- word _ (?x ++ _) _ =>
      apply (word_intro _ (x ++ bs " ") (s ++ bs " ")); [tab | kw] end.
  - intros [v H]. inversion H as [k L f u n W G]; subst. inversion W as [? s ? I S]; subst. unfold status_val_table in I.
    destruct ext_condstore_qresync eqn:Q; cbn [when app In] in I;
    repeat match type of I with _ \/ _ => destruct I as [I | I] | False => destruct I end; injection I as <- <- <-; kwsplit; norm; build.
Qed.
#[global] Instance status_list_rule : R (opt StatusAttList) (list_of (bs " ") G_status_val) | 0.
Proof.
  intros t. rewrite <- (R_list StatusAttVal (bs " ") _ status_val_rule eq_refl t). unfold opt. now rewrite !D_or, (D_ref _ _ StatusAttList).
Qed.
#[global] Instance modseq_result_rule : R (opt (SP ^ SearchSortModSeq)) G_modseq_result | 0.
Proof.
  intros t. split.
  - intros H. apply D_or in H as [H | H].
    + apply D_eps in H as ->. eexists. constructor.
    + dinv. eexists. eapply text_is; [eapply g_modseq; [assumption | kw | eassumption] | text].
  - intros [v H]. inversion H; subst; [build |]. change (bs " (") with (bs " " ++ bs "("). kwsplit. norm. build.
Qed.
Ltac viaz c := eexists; eapply text_is; [eapply c; first [eassumption | kw | (left; reflexivity) | (right; split; [assumption | reflexivity]) | constructor; eassumption] | text].
Ltac viay c := eexists; eapply text_is; [eapply c; first [eassumption | kw | (right; split; [assumption | reflexivity]) | constructor; eassumption] | text].
Ltac dopt := match goal with H : optional _ _ _ |- _ => inversion H; subst; clear H end; dinv.
Ltac spkw := apply (letters_app (bs " ") _ (bs " ")); [now apply letters_fixed | assumption].
Lemma data_rule t : D (MailboxData / MessageData / CapabilityData / EnableData / Feature ext_id IdResponse) t <-> exists d, G_data t d.
Proof.
  split.
  - intros H. orcases H.
    + apply D_ref in H. cbn [rules] in H. orcases H.
      * dinv. viaz g_data_flags.
      * dinv. destruct H1 as (tf & td & tm & -> & A & B & C). eexists. apply g_data_list.
        exists (x ++ bs " "), tf, (fst (fst x1)), td, (snd (fst x1)), tm, (snd x1).
        split; [kw |]. repeat (split; [assumption |]). split; [norm; reflexivity | reflexivity].
      * dinv. destruct H1 as (tf & td & tm & -> & A & B & C). eexists. apply g_data_lsub.
        exists (x ++ bs " "), tf, (fst (fst x1)), td, (snd (fst x1)), tm, (snd x1).
        split; [kw |]. repeat (split; [assumption |]). split; [norm; reflexivity | reflexivity].
      * dinv. viaz g_data_search.
      * dinv. viay g_data_search.
      * dinv. viaz g_data_sort.
      * dinv. dopt. -- viaz g_data_thread_none. -- viaz g_data_thread.
      * dinv. viaz g_data_status.
      * dinv. viay g_data_status.
      * dinv; [viaz g_data_metadata_values | viaz g_data_metadata].
      * dinv. eexists. eapply text_is; [eapply (g_data_namespace _ _ _ _ _ _ _ H); [kw | exact H2 | exact H4 | exact H1] | text].
      * dinv. eexists. eapply g_data_exists; [eassumption |]. spkw.
      * dinv. eexists. eapply g_data_recent; [eassumption |]. spkw.
      * dinv. viaz g_data_quotaroot.
      * dinv. viaz g_data_quota.
    + apply D_ref in H. cbn [rules] in H. orcases H.
      * dinv. -- eexists. eapply g_data_expunge; [eassumption |]. spkw.
        -- joinsp. rewrite (app_assoc _ (_ ++ _)). eexists. eapply g_data_fetch; [eassumption | spkw | eassumption].
      * dinv.
        -- viaz g_data_vanished.
        -- rewrite (app_assoc x). eexists. eapply g_data_vanished_earlier; [assumption | | eassumption].
           change (bs "VANISHED (EARLIER)") with (bs "VANISHED" ++ bs " " ++ bs "(EARLIER)").
           apply letters_app; [assumption |]. apply letters_app; [now apply letters_fixed | assumption].
    + dinv. eexists. eapply g_data_capability. eassumption.
    + dinv. viaz g_data_enabled.
    + dinv. viaz g_data_id.
  - intros [v H]. inversion H; subst; norm; kwsplit; norm; try build.
    + destruct H0 as (k & tf & fl & td & de & tm & m & K & A & B & C & -> & ->). kwsplit. norm.
      do 4 apply d_or_l. apply l_ref. cbn [rules]. do 13 apply d_or_l. apply d_or_r. apply d_cat; [now apply D_str |].
      apply d_cat; [leaf |]. apply (spec MailboxList). exists (fl, de, m), tf, td, tm. auto.
    + destruct H0 as (k & tf & fl & td & de & tm & m & K & A & B & C & -> & ->). kwsplit. norm.
      do 4 apply d_or_l. apply l_ref. cbn [rules]. do 12 apply d_or_l. apply d_or_r. apply d_cat; [now apply D_str |].
      apply d_cat; [leaf |]. apply (spec MailboxList). exists (fl, de, m), tf, td, tm. auto.
    + destruct H3 as [-> | [Q ->]]; norm; build.
    + destruct H3 as [-> | [Q ->]]; inversion H2; subst; norm; build.
    + fixed K. norm. build.
    + fixed K. norm. build.
    + fixed K. norm. build.
    + fixed K. norm. build.
Qed.
End Responses.
