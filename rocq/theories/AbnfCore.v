(** The rules of AbnfSpec.v and the relations of Grammar.v: tokens, dates, search keys. *)

From Verif Require Import Bytes BytesFacts Features Nom Types Utf8 Conv ValueSpec ValueFacts Grammar SoundCap MoreFacts NameFacts AbnfSpec AbnfFacts.
Open Scope N_scope.
Open Scope abnf_scope.

Section Tokens.
Context {F : features}.
Local Notation D := (derives true true).

(** ** Tokens *)
Lemma crlf_rule t : D CRLF t <-> eol t.
Proof.
  rewrite D_ref. cbn [rules]. rewrite D_or, D_extra_t, D_feature, !D_str. unfold eol.
  rewrite !letters_fixed by reflexivity. reflexivity.
Qed.
Lemma digits_some t : D (some DIGIT) t <-> t <> [] /\ forallb is_digit t = true.
Proof.
  unfold DIGIT. rewrite D_some_of. unfold some_of, is_DIGIT. rewrite forallb_forall, Forall_forall.
  split; intros [N H]; (split; [exact N |]); intros b I; specialize (H b I); now apply is_digit_spec || apply is_digit_spec in H.
Qed.
Lemma number_bits max (P : N -> Prop) t : (forall n, P n <-> n <= max) ->
  D (Where (value P) (some DIGIT)) t <-> exists n, G_num max t n.
Proof.
  intros E. rewrite D_where, digits_some. unfold value, G_num. split.
  - intros ((N & H) & n & G & L). exists n. now rewrite <- E.
  - intros (n & N & G & L). rewrite <- E in L. pose proof G as G'. apply digits_spec in G' as [G' _]. eauto.
Qed.
Lemma nz_bits max (P : N -> Prop) t : (forall n, P n <-> 0 < n <= max) ->
  D (Where (value P) (some DIGIT)) t <-> exists n, G_nz max t n.
Proof.
  intros E. rewrite D_where, digits_some. unfold value, G_nz, G_num. split.
  - intros ((N & H) & n & G & L). exists n. rewrite E in L. repeat split; auto; lia.
  - intros (n & (N & G & L) & Z). pose proof G as G'. apply digits_spec in G' as [G' _]. repeat split; auto.
    exists n. split; [assumption | apply E; lia].
Qed.
#[global] Instance number_rule : R Number G_number.
Proof. apply R_ref. intros t. apply number_bits. unfold u32_max. lia. Qed.
#[global] Instance number64_rule : R Number64 G_number64.
Proof.
  apply R_ref. intros t. cbn [rules]. rewrite D_or, D_extra_t. unfold bits64.
  rewrite (number_bits u64_max (fun n => n < 18446744073709551616)) by (unfold u64_max; lia). split; [| auto].
  intros [H | H]; [| exact H]. apply D_where in H as [H (n & G & L)]. apply digits_some in H as [N H]. cbn beta in L. exists n. unfold G_number64, G_num, u64_max. repeat split; auto. lia.
Qed.
Lemma nz_digits t : D (digit_nz ^ Many DIGIT) t -> D (some DIGIT) t.
Proof.
  unfold some. rewrite !D_cat. intros (u & v & -> & H & G). exists u, v. repeat split; auto.
  apply D_chr in H as (b & -> & H). apply D_chr. exists b. split; [reflexivity | unfold is_DIGIT; lia].
Qed.
#[global] Instance nz_number_rule : R NzNumber G_nz_number.
Proof.
  apply R_ref. intros t. cbn [rules]. rewrite D_or, D_extra_t, D_where. unfold nz_bits32.
  rewrite <- (nz_bits u32_max (fun n => 0 < n < 4294967296)) by (unfold u32_max; lia). split; [| auto].
  intros [[H G] | H]; [| exact H]. apply D_where. split; [now apply nz_digits | assumption].
Qed.
#[global] Instance modseq_value_rule : R ModSequenceValue G_nz_number64.
Proof. apply R_ref. intros t. apply nz_bits. unfold u64_max. lia. Qed.
#[global] Instance modseq_valzer_rule : R ModSequenceValzer G_number64.
Proof.
  apply R_ref. intros t. cbn [rules]. rewrite !D_or, D_extra_t, D_str, (spec ModSequenceValue).
  unfold bits64. rewrite (number_bits u64_max (fun n => n < 18446744073709551616)) by (unfold u64_max; lia). split; [| auto].
  intros [[H | [n [H _]]] | H]; [| eauto | exact H]. apply letters_fixed in H as ->; [| reflexivity].
  exists 0. repeat split; [discriminate | now apply digits_spec | unfold u64_max; lia].
Qed.
#[global] Instance atom_rule : R Atom G_atom.
Proof. apply R_ref. intros t. cbn [rules]. rewrite D_some_of. unfold G_atom. split; [eauto | now intros [a [H _]]]. Qed.
Lemma atom_rule' t : D Atom t <-> some_of ATOM_CHAR t.
Proof. rewrite (spec Atom). unfold G_atom. split; [now intros [a [H _]] | eauto]. Qed.
Lemma name_rule {A} (T : list (bytes * A)) other r : forallb (fun x => atom_ok (fst x)) T = true ->
  (forall t, D r t <-> D Atom t) -> R r (name T other).
Proof. intros H E t. rewrite E, atom_rule'. symmetry. now apply name_atom. Qed.
#[global] Instance tag_rule : R Tag G_tag.
Proof. apply R_ref. intros t. cbn [rules]. rewrite D_some_of. unfold G_tag. split; [eauto | now intros [a [H _]]]. Qed.
Lemma quoted_body_rule t : D (Many QuotedChar) t <-> exists s, quoted_body t s /\ many_of TEXT_CHAR s.
Proof.
  split.
  - remember (Many QuotedChar) as m. induction 1; try discriminate; injection Heqm as ->.
    + exists []. split; constructor.
    + destruct (IHderives2 eq_refl) as (s & Q & T). apply D_ref in H. cbn [rules] in H.
      apply D_or in H as [H | H].
      * apply D_chr in H as (b & -> & B & N). exists (b :: s). split; [now apply qb_plain | now constructor].
      * apply D_cat in H as (x & y & -> & X & Y). apply D_str in X. apply letters_fixed in X as ->; [| reflexivity].
        apply D_chr in Y as (b & -> & B). exists (b :: s). split; [now apply (qb_escaped b) |].
        constructor; [| assumption]. unfold TEXT_CHAR, CHAR. destruct B as [B | B]; rewrite B; (split; [lia |]); split; intros ->; discriminate.
  - intros (s & Q & T). induction Q as [| b w s N Q IH | b w s B Q IH].
    + constructor.
    + inversion T; subst. change (b :: w) with ([b] ++ w). apply d_more; [| auto]. constructor. cbn [rules].
      apply d_or_l. now constructor.
    + inversion T; subst. change ("\"%byte :: b :: w) with (([("\"%byte)] ++ [b]) ++ w). apply d_more; [| auto]. constructor.
      cbn [rules]. apply d_or_r. apply d_cat; [apply D_str; now apply letters_fixed | now constructor].
Qed.
#[global] Instance quoted_rule : R Quoted G_quoted.
Proof.
  apply R_ref. intros t. cbn [rules]. split.
  - intros H. rewrite D_cat in H. destruct H as (? & ? & -> & H & G). rewrite D_cat in G. destruct G as (? & ? & -> & G & K).
    apply D_str in H, K. apply letters_fixed in H as ->, K as ->; try reflexivity. apply quoted_body_rule in G as (s & Q & T).
    exists s. now constructor.
  - intros [s H]. inversion H as [w s' Q T]; subst. apply d_cat; [apply D_str; now apply letters_fixed |].
    apply d_cat; [apply quoted_body_rule; eauto | apply D_str; now apply letters_fixed].
Qed.
Lemma literal_rule_of (start : bytes) (X : byte -> Prop) t :
  D (Prose (literal_text start crlf_text X) / Extra (Feature quirk_crlf_relaxed (Prose (literal_text start lf_text X)))) t <->
  exists d m mode e s, t = start ++ d ++ m ++ bs "}" ++ e ++ s /\ G_number d (lenN s) /\ G_lit_mode m mode /\ eol e /\ Forall X s.
Proof.
  rewrite D_or, D_extra_t, D_feature, !D_prose. unfold literal_text, eol, crlf_text, lf_text, G_number, G_num, lenN, u32_max. split.
  - intros [(d & p & e & s & -> & N & G & L & P & -> & S) | (Q & d & p & e & s & -> & N & G & L & P & -> & S)].
    + assert (M : exists mode, G_lit_mode p mode) by (destruct P as [-> | ->]; eexists; constructor).
      destruct M as [mode M]. exists d, p, mode, [bCR; bLF], s. repeat split; auto. lia.
    + assert (M : exists mode, G_lit_mode p mode) by (destruct P as [-> | ->]; eexists; constructor).
      destruct M as [mode M]. exists d, p, mode, [bLF], s. repeat split; auto. lia.
  - intros (d & m & mode & e & s & -> & (N & G & L) & M & E & S).
    assert (P : m = [] \/ m = bs "+") by (inversion M; auto).
    destruct E as [-> | [Q ->]]; [left | right; split; [exact Q |]]; exists d, m; eexists; exists s; repeat split; auto; lia.
Qed.
#[global] Instance literal_rule : R Literal G_literal.
Proof.
  apply R_ref. intros t. cbn [rules]. rewrite literal_rule_of. split.
  - intros (d & m & mode & e & s & -> & H & M & E & S). exists (mkLit s mode). now constructor.
  - intros [l H]. inversion H; subst. exists d, m, mode, e, s. auto.
Qed.
#[global] Instance literal8_rule : R Literal8 G_literal8.
Proof.
  apply R_ref. intros t. cbn [rules]. rewrite literal_rule_of. split.
  - intros (d & m & mode & e & s & -> & H & M & E & S). exists (mkLit8 s mode). now constructor.
  - intros [l H]. inversion H; subst. exists d, m, mode, e, s. repeat split; auto; try apply H0. apply Forall_forall. auto.
Qed.
Lemma text_dec s : many_of TEXT_CHAR s \/ ~ many_of TEXT_CHAR s.
Proof. rewrite <- quoted_ok_spec. destruct (quoted_ok s); auto. Qed.
Lemma utf8_quoted X t :
  D (DQUOTE ^ Prose (utf8_text X) ^ DQUOTE) t -> ext_utf8 = true -> exists s, G_string t s.
Proof.
  intros H U. apply D_cat in H. destruct H as (? & ? & -> & H & G). rewrite D_cat in G. destruct G as (? & ? & -> & G & K).
  apply D_str in H, K. apply letters_fixed in H as ->, K as ->; try reflexivity.
  apply D_prose in G as (V & s & Q & _). destruct (text_dec s) as [T | T].
  - exists (IQuoted s). apply g_str_quoted. now constructor.
  - exists (IQuotedUtf8 s). now apply g_str_utf8.
Qed.
#[global] Instance string_rule : R String_ G_string.
Proof.
  apply R_ref. intros t. cbn [rules]. rewrite !D_or, D_extra_t, !D_feature, (spec Quoted), (spec Literal). split.
  - intros [[[[s H] | [s H]] | [U H]] | [U H]].
    + exists (IQuoted s). now constructor.
    + exists (ILiteral s). now constructor.
    + now apply (utf8_quoted _ t H).
    + now apply (utf8_quoted _ t H).
  - intros [s H]. inversion H; subst; [left; left; left; eauto | | left; left; right; eauto].
    right. split; [assumption |]. apply d_cat; [apply D_str; now apply letters_fixed |].
    apply d_cat; [| apply D_str; now apply letters_fixed]. apply D_prose. split; [assumption |].
    exists s0. split; [assumption |]. apply Forall_forall. auto.
Qed.
#[global] Instance nil_rule : R Nil (fun t (v : unit) => G_nil t).
Proof. apply R_ref. intros t. cbn [rules]. rewrite D_str. split; [intros H; now exists tt | now intros [_ H]]. Qed.
#[global] Instance nstring_rule : R Nstring G_nstring.
Proof.
  apply R_ref. intros t. cbn [rules]. rewrite D_or, (spec String_), (spec Nil). split.
  - intros [[s H] | [_ H]]; [exists (Some s) | exists None]; now constructor.
  - intros [s H]. inversion H; subst; [left | right; exists tt]; eauto.
Qed.
#[global] Instance astring_rule : R Astring G_astring.
Proof.
  apply R_ref. intros t. cbn [rules]. rewrite D_or, D_some_of, (spec String_). split.
  - intros [H | [s H]]; [exists (AAtom t) | exists (AString s)]; now constructor.
  - intros [s H]. inversion H; subst; eauto.
Qed.
#[global] Instance nstring8_rule : R Value G_nstring8.
Proof.
  apply R_ref. intros t. cbn [rules]. rewrite D_or, (spec Nstring), (spec Literal8). split.
  - intros [[s H] | [s H]]; eexists; [apply g_n8_nstring | apply g_n8_literal8]; eassumption.
  - intros [s H]. inversion H; subst; eauto.
Qed.
#[global] Instance charset_rule : R Charset G_charset.
Proof.
  apply R_ref. intros t. cbn [rules]. rewrite D_or, atom_rule', (spec Quoted). split.
  - intros [H | [s H]]; [exists (CharsetAtom t) | exists (CharsetQuoted s)]; now constructor.
  - intros [s H]. inversion H; subst; eauto.
Qed.
Lemma base64_shape p t : base64 p t -> D (Many (times 4 Base64Char) ^ opt Base64Terminal) t.
Proof.
  assert (C : forall c v, b64_value c v -> D Base64Char [c]).
  { intros c v H. constructor. cbn [rules]. apply d_chr. eauto. }
  induction 1.
  - change (@nil byte) with (@nil byte ++ []). apply d_cat; [apply d_none | apply d_or_l, d_eps].
  - change [c1; c2; "="%byte; "="%byte] with ([] ++ [c1] ++ [c2] ++ bs "=="). apply d_cat; [apply d_none |].
    apply d_or_r. constructor. cbn [rules]. apply d_or_l. repeat apply d_cat; eauto. apply D_str. now apply letters_fixed.
  - change [c1; c2; c3; "="%byte] with ([] ++ [c1] ++ [c2] ++ [c3] ++ bs "="). apply d_cat; [apply d_none |].
    apply d_or_r. constructor. cbn [rules]. apply d_or_r. repeat apply d_cat; eauto. apply D_str. now apply letters_fixed.
  - apply D_cat in IHbase64 as (u & v & -> & U & V).
    change (c1 :: c2 :: c3 :: c4 :: u ++ v) with ((([c1] ++ [c2] ++ [c3] ++ [c4] ++ []) ++ u) ++ v).
    apply d_cat; [| assumption]. apply d_more; [| assumption]. cbn [times]. repeat apply d_cat; eauto. constructor.
Qed.
#[global] Instance base64_rule : R AbnfSpec.Base64 G_base64.
Proof.
  apply R_ref. intros t. cbn [rules]. rewrite D_limit_t. unfold canonical, G_base64. split.
  - now intros [_ H].
  - intros [p H]. split; [now apply (base64_shape p) | eauto].
Qed.

(** ** Sequence sets, mailboxes, flags *)
Ltac rule := apply R_ref; intros t; cbn [rules]; split.
Ltac finish := eexists; eapply text_is; [econstructor | text].
#[global] Instance seq_number_rule : R SeqNumber G_seq_number.
Proof. rule. - intros H. dinv; eexists; econstructor; eassumption. - intros [v H]. inversion H; subst; build. Qed.
#[global] Instance sequence_rule : R (SeqNumber / SeqRange) G_sequence.
Proof.
  intros t. split.
  - intros H. dinv; eexists; econstructor; eassumption.
  - intros [v H]. inversion H; subst; build.
Qed.
#[global] Instance sequence_set_rule : R SequenceSet G_sequence_set.
Proof. apply R_ref. exact (I_comma _ _ _). Qed.
Lemma known_uids_rule r : rules r = Where no_asterisk SequenceSet / Extra SequenceSet -> R (Ref r) G_sequence_set.
Proof.
  intros E t. rewrite D_ref, E, D_or, D_where, D_extra_t, <- (spec SequenceSet). tauto.
Qed.
#[global] Instance known_uids_1 : R KnownUids G_sequence_set. Proof. now apply known_uids_rule. Qed.
#[global] Instance known_uids_2 : R KnownSequenceSet G_sequence_set. Proof. now apply known_uids_rule. Qed.
#[global] Instance known_uids_3 : R KnownUidSet G_sequence_set. Proof. now apply known_uids_rule. Qed.
Lemma inbox_dec s : same_letters s (bs "INBOX") \/ ~ same_letters s (bs "INBOX").
Proof. rewrite same_letters_spec. destruct (list_eq_dec Byte.byte_eq_dec (lowers s) (lowers (bs "INBOX"))); auto. Qed.
Lemma mailbox_astring t : (exists m, G_mailbox t m) <-> (exists a, G_astring t a).
Proof.
  split.
  - intros [m H]. inversion H; subst. eauto.
  - intros [a H]. destruct (inbox_dec (bytes_of_astring a)) as [I | I]; [exists MInbox | exists (MOther a)]; eapply g_mailbox; eauto.
Qed.
Lemma inbox_atom t : same_letters t (bs "INBOX") -> some_of ASTRING_CHAR t.
Proof.
  intros H. destruct (letters_atom t (bs "INBOX") H eq_refl) as [N A]. split; [exact N |].
  eapply Forall_impl; [| exact A]. now left.
Qed.
#[global] Instance mailbox_rule : R Mailbox G_mailbox.
Proof.
  apply R_ref. intros t. cbn [rules]. rewrite mailbox_astring, D_or, D_str, (spec Astring). split; [| auto].
  intros [H | H]; [| exact H]. exists (AAtom t). constructor. now apply inbox_atom.
Qed.
#[global] Instance list_mailbox_rule : R ListMailbox G_list_mailbox.
Proof.
  apply R_ref. intros t. cbn [rules]. rewrite D_or, D_some_of, (spec String_). split.
  - intros [H | [s H]]; eexists; [now apply g_lm_token | eapply g_lm_string; eassumption].
  - intros [s H]. inversion H; subst; eauto.
Qed.
Lemma letters_tail t b s : forallb no_letter [b] = true -> same_letters t (b :: s) -> exists u, t = [b] ++ u /\ same_letters u s.
Proof.
  intros NL H. change (b :: s) with ([b] ++ s) in H. apply letters_split in H as (u & v & -> & U & V).
  apply (letters_fixed _ NL) in U as ->. eauto.
Qed.
#[global] Instance flag_rule : R Flag G_flag.
Proof.
  assert (N : forall t, some_of ATOM_CHAR t -> exists f, name flag_table FExtension t f) by (intros t H; now apply name_atom).
  rule.
  - rewrite !D_or, !D_str. intros [[[[[[H | H] | H] | H] | H] | H] | H];
      try (apply letters_tail in H as (u & -> & H); [| reflexivity]; edestruct N as [f NF];
           [eapply letters_atom; [exact H | reflexivity] | exists f; now apply g_flag_system]).
    + apply D_ref in H. cbn [rules] in H. apply atom_rule' in H. eexists. now apply g_flag_keyword.
    + apply D_ref in H. cbn [rules] in H. apply D_cat in H as (u & v & -> & H & G). apply D_str in H.
      apply letters_fixed in H as ->; [| reflexivity]. apply atom_rule' in G. destruct (N v G) as [f NF]. exists f. now apply g_flag_system.
  - intros [v H]. inversion H; subst.
    + apply d_or_r. constructor. cbn [rules]. apply d_cat; [apply D_str; now apply letters_fixed |].
      apply atom_rule'. apply (name_atom flag_table FExtension); [reflexivity | eauto].
    + apply d_or_l, d_or_r. constructor. cbn [rules]. now apply atom_rule'.
Qed.
#[global] Instance flag_list_rule : R FlagList G_flag_list.
Proof. apply R_ref. exact (I_parens _ _ _). Qed.

(** ** Dates *)
Lemma digits_times n t : D (times n DIGIT) t <-> exists v, G_digits n t v.
Proof.
  assert (E : D (times n DIGIT) t <-> length t = n /\ forallb is_digit t = true).
  { revert t. induction n; intros t; cbn [times].
    - rewrite D_eps. split; [intros ->; auto | intros [H _]; now destruct t].
    - rewrite D_cat. setoid_rewrite IHn. setoid_rewrite D_chr. split.
      + intros (u & v & -> & (b & -> & B) & <- & V). split; [reflexivity |]. cbn [forallb app].
        rewrite V, andb_true_r. now apply is_digit_spec.
      + intros [L H]. destruct t as [| b t]; [easy |]. cbn [forallb] in H. apply andb_prop in H as [B H].
        exists [b], t. injection L as L. repeat split; auto. exists b. split; [reflexivity | now apply is_digit_spec]. }
  rewrite E. unfold G_digits. setoid_rewrite digits_spec. split; [intros [L H]; eauto | intros (v & L & H & _); auto].
Qed.
#[global] Instance digits_4 : R (times 4 DIGIT) (G_digits 4). Proof. intros t. apply digits_times. Qed.
#[global] Instance digits_2 : R (times 2 DIGIT) (G_digits 2). Proof. intros t. apply digits_times. Qed.
#[global] Instance date_year_rule : R DateYear (G_digits 4). Proof. apply R_ref. apply digits_4. Qed.
#[global] Instance month_rule : R DateMonth (word month_table).
Proof.
  apply R_ref. intros t. rewrite word_words. cbn [rules]. rewrite !D_or, !D_str. cbn [map fst words month_table]. tauto.
Qed.
Lemma digit_1 t : D DIGIT t <-> exists v, G_digits 1 t v.
Proof.
  rewrite <- digits_times. cbn [times]. rewrite D_cat. setoid_rewrite D_eps. split.
  - intros H. exists t, []. now rewrite app_nil_r.
  - intros (u & v & -> & H & ->). now rewrite app_nil_r.
Qed.
#[global] Instance date_day_rule : R DateDay (fun t v => exists k, In k [1; 2]%nat /\ G_digits k t v).
Proof.
  apply R_ref. intros t. cbn [rules]. rewrite D_or, digit_1.
  assert (E : D (DIGIT ^ DIGIT) t <-> exists v, G_digits 2 t v).
  { rewrite <- digits_times. cbn [times]. rewrite !D_cat. setoid_rewrite D_cat. setoid_rewrite D_eps. split.
    - intros (u & v & -> & H & G). exists u, v. repeat split; auto. exists v, []. now rewrite app_nil_r.
    - intros (u & w & -> & H & v & z & -> & G & ->). exists u, v. now rewrite app_nil_r. }
  rewrite E. split.
  - intros [[v H] | [v H]]; exists v; [exists 1%nat | exists 2%nat]; split; cbn; auto.
  - intros (v & k & [<- | [<- | []]] & H); eauto.
Qed.

Lemma cut_unique (c : byte) a b a' b' : ~ In c a -> ~ In c a' -> a ++ [c] ++ b = a' ++ [c] ++ b' -> a = a' /\ b = b'.
Proof.
  revert a'. induction a as [| x a IH]; intros [| y a'] N N' E; cbn [app] in E.
  - injection E as ->. auto.
  - injection E as <- _. destruct N'. now left.
  - injection E as <- _. destruct N. now left.
  - injection E as <- E. destruct (IH a') as [-> ->]; auto; intros I; [apply N | apply N']; now right.
Qed.
Lemma digits_no (c : byte) t n : is_digit c = false -> digits t n -> ~ In c t.
Proof. intros E H I. apply digits_spec in H as [H _]. rewrite forallb_forall in H. now rewrite (H c I) in E. Qed.
Lemma letters_no (c : byte) t s : no_letter c = true -> same_letters t s -> ~ In c s -> ~ In c t.
Proof.
  intros NL H N I. induction H as [| x y t s S H IH]; [easy |]. destruct I as [-> | I].
  - apply N. left. symmetry. enough (E : [c] = [y]) by (now injection E).
    unfold no_letter in NL. apply andb_prop in NL as [B1 B2]. apply negb_true_iff in B1, B2.
    apply andb_false_iff in B1, B2. rewrite !N.leb_gt in B1, B2.
    destruct S as [-> | [S | S]]; [reflexivity | lia | lia].
  - apply IH; auto. intros J. apply N. now right.
Qed.
Lemma month_no t m : word month_table t m -> ~ In "-"%byte t.
Proof.
  intros H. inversion H as [? s ? I S]; subst. apply (letters_no _ t s); [reflexivity | assumption |].
  unfold month_table in I. cbn [In] in I. repeat (destruct I as [I | I]; [injection I as <- _; cbn; intuition discriminate |]). easy.
Qed.
Lemma month_text_word t m : month_text t m <-> word month_table t m.
Proof. split; [intros (s & Hi & S); exact (word_intro month_table t s m Hi S) | inversion 1; subst; exists s; auto]. Qed.
#[global] Instance date_text_rule : R DateText G_date_text.
Proof.
  apply R_ref. intros t. cbn [rules]. rewrite D_limit_t. split.
  - intros [H (td & tm & ty & y & m & d & E & Td & Tm & Ty & Rd)]. apply month_text_word in Tm.
    dinv. match goal with H : exists k, _ |- _ => destruct H as (k & Ik & Lk & Ud) end.
    match goal with H : word month_table _ _ |- _ => rename H into Um end.
    match goal with H : G_digits 4 _ _ |- _ => destruct H as [L4 Uy] end.
    apply (cut_unique "-"%byte) in E as [-> E]; [| eapply digits_no; [| eassumption]; reflexivity ..].
    apply (cut_unique "-"%byte) in E as [-> ->]; [| eapply month_no; eassumption ..].
    exists (mkDate y m d). apply (g_date_text k); auto; now split.
  - intros [v H]. inversion H as [k td d tm m ty y Ik Hd Hm Hy Rd]; subst. split.
    + assert (D DateDay td) by (apply (spec DateDay); eauto). build.
    + exists td, tm, ty, y, m, d. apply month_text_word in Hm. repeat split; try apply Hd; try apply Hy; auto.
Qed.
#[global] Instance date_rule : R Date G_date.
Proof. rule. - intros H. dinv; eexists; econstructor; eassumption. - intros [v H]. inversion H; subst; build. Qed.
#[global] Instance day_fixed_rule : R DateDayFixed G_day_fixed.
Proof.
  rule.
  - rewrite D_or. intros [H | H].
    + apply D_cat in H as (u & v & -> & H & G). apply D_str in H. fixed H. apply digit_1 in G as [d G]. exists d. now apply g_day_1.
    + dinv. eexists. apply g_day_2. eassumption.
  - intros [v H]. inversion H; subst.
    + apply d_or_l. apply d_cat; [apply D_str; now apply letters_fixed | apply digit_1; eauto].
    + apply d_or_r. build.
Qed.
Lemma digits_app t u n m : digits t n -> digits u m -> exists k, digits (t ++ u) k.
Proof.
  rewrite !digits_spec. intros [T _] [U _]. exists (dval (t ++ u)). apply digits_spec. now rewrite forallb_app, T, U.
Qed.
Lemma zone_shape t z : G_zone t z -> D Zone t.
Proof.
  intros H. inversion H as [th h tm m [Lh Hh] [Lm Hm] | th h tm m [Lh Hh] [Lm Hm]]; subst; destruct (digits_app _ _ _ _ Hh Hm) as [k K].
  - apply l_ref. apply d_cat; [apply d_or_l; build |]. apply digits_times. exists k. split; [rewrite app_length; now rewrite Lh, Lm | exact K].
  - apply l_ref. apply d_cat; [apply d_or_r; build |]. apply digits_times. exists k. split; [rewrite app_length; now rewrite Lh, Lm | exact K].
Qed.
Lemma fixed_no t d : G_day_fixed t d -> ~ In "-"%byte t.
Proof.
  intros H. inversion H as [u v [L G] | u v [L G]]; subst; pose proof (digits_no "-"%byte _ _ eq_refl G) as N; [| exact N].
  intros [I | I]; [discriminate | now apply N].
Qed.
Lemma cut_cons (c : byte) a b a' b' : ~ In c a -> ~ In c a' -> a ++ c :: b = a' ++ c :: b' -> a = a' /\ b = b'.
Proof. exact (cut_unique c a b a' b'). Qed.
Lemma fixed_day sp td x d : (sp = [] \/ sp = bs " ") -> digits td d -> G_day_fixed (sp ++ td) x -> G_day_fixed (sp ++ td) d.
Proof.
  intros S Td H. remember (sp ++ td) as t eqn:E. destruct H as [u v [L G] | u v [L G]].
  - destruct S as [-> | ->]; cbn [app bs] in E; [| injection E as ->; apply g_day_1; now split].
    subst td. destruct (digits_no " "%byte _ _ eq_refl Td). now left.
  - destruct S as [-> | ->]; cbn [app bs] in E; subst u; [apply g_day_2; now split |].
    destruct (digits_no " "%byte _ _ eq_refl G). now left.
Qed.
Lemma date_time_of x sp td tm ty th ti ts tz y m d h i s oh om z :
  G_day_fixed (sp ++ td) x -> (sp = [] \/ sp = bs " ") -> digits td d -> word month_table tm m -> length ty = 4%nat -> digits ty y ->
  length th = 2%nat -> digits th h -> length ti = 2%nat -> digits ti i -> length ts = 2%nat -> digits ts s -> G_zone tz z ->
  real_date (mkDate y m d) -> h < 24 -> i < 60 -> s < 60 -> 60 * oh + om < 1440 ->
  (z = 60 * (60 * Z.of_N oh + Z.of_N om) \/ z = - (60 * (60 * Z.of_N oh + Z.of_N om)))%Z ->
  exists v, G_date_time ([bDQ] ++ (sp ++ td) ++ bs "-" ++ tm ++ bs "-" ++ ty ++ bs " " ++ (th ++ bs ":" ++ ti ++ bs ":" ++ ts) ++ bs " " ++ tz ++ [bDQ]) v.
Proof.
  intros Ud Sp Td Tm Ly Ty Lh Th Li Ti Ls Ts Z Rd Bh Bi Bs Bz E. eexists. rewrite <- (app_assoc th), <- (app_assoc (bs ":")), <- (app_assoc ti), <- (app_assoc (bs ":") ts).
  eapply g_date_time; [exact (fixed_day sp td x d Sp Td Ud) | exact Tm | split; eassumption .. | exact Z |].
  unfold real_date_time. cbn [dt_date dt_hour dt_min dt_sec dt_offset]. repeat split; auto.
  - lia.
  - lia.
  - destruct E as [-> | ->]; eexists; [reflexivity | symmetry; apply Z.mul_opp_r].
Qed.
#[global] Instance date_time_rule : R DateTime G_date_time.
Proof.
  apply R_ref. intros t. cbn [rules]. rewrite D_limit_t. split.
  - intros [H (sp & td & tm & ty & th & ti & ts & sign & zh & zm & y & m & d & h & i & s & oh & om & E & Sp & Sg & Td & Tm & Ty & Th & Ti & Ts & Lz & Zh & Zm & Rd & Bh & Bi & Bs & Bz)].
    apply month_text_word in Tm. dinv; repeat match goal with H : G_digits _ _ _ |- _ => destruct H as [? H] end;
    cbn [app] in E; injection E as E;
    match goal with H : G_day_fixed ?x _ |- _ => rename H into Ud end;
    rewrite (app_assoc sp td), <- app_assoc in E;
    (apply cut_cons in E as [-> E];
     [| eapply fixed_no; exact Ud
      | intros I; apply in_app_or in I as [I | I];
        [destruct Sp as [-> | ->]; [easy | destruct I as [I | []]; discriminate]
        | revert I; eapply digits_no; [| exact Td]; reflexivity]]);
    (apply cut_cons in E as [-> E]; [| eapply month_no; eassumption ..]);
    rewrite <- ?app_assoc in E; cbn [app] in E; rewrite <- ?app_assoc in E; cbn [app] in E;
    (apply cut_cons in E as [-> E]; [| eapply digits_no; [| eassumption]; reflexivity ..]);
    (apply cut_cons in E as [-> E]; [| eapply digits_no; [| eassumption]; reflexivity ..]);
    (apply cut_cons in E as [-> E]; [| eapply digits_no; [| eassumption]; reflexivity ..]);
    (apply cut_cons in E as [-> E]; [| eapply digits_no; [| eassumption]; reflexivity ..]);
    (destruct Sg as [-> | ->]; cbn [app bs] in E; try discriminate E); injection E as E;
    rewrite app_assoc in E; apply app_inj_tail in E as [-> _];
    match goal with L : length (zh ++ zm) = _ |- _ => rewrite app_length, Lz in L end.
    all: assert (Lm : length zm = 2%nat) by lia.
    all: eapply (date_time_of _ sp td tm ty th ti ts _ y m d h i s oh om); try eassumption;
      [first [apply g_zone_east | apply g_zone_west]; (split; eassumption) | auto].
  - intros [v H]. inversion H as [td d tm m ty y th h ti i ts s tz z Hd Hm Hy Hh Hi Hs Hz Rd]; subst. split.
    + assert (D Zone tz) by (eapply zone_shape; eassumption). build.
    + unfold real_date_time in Rd. cbn [dt_date dt_hour dt_min dt_sec dt_offset] in Rd. destruct Rd as (Rd & Bh & Bi & Bs & Bz & _).
      assert (Z : exists sign zh zm oh om, tz = sign ++ zh ++ zm /\ (sign = bs "+" \/ sign = bs "-") /\ length zh = 2%nat /\ digits zh oh /\ digits zm om /\ 60 * oh + om < 1440).
      { inversion Hz as [zh oh zm om [Lh Zh] [Lm Zm] | zh oh zm om [Lh Zh] [Lm Zm]]; subst; [exists (bs "+") | exists (bs "-")];
          exists zh, zm, oh, om; repeat split; auto; lia. }
      assert (Y : exists sp td', td = sp ++ td' /\ (sp = [] \/ sp = bs " ") /\ digits td' d).
      { inversion Hd as [u ? [_ U] | u ? [_ U]]; subst; [exists (bs " "), u | exists [], td]; auto. }
      destruct Z as (sign & zh & zm & oh & om & -> & Sg & Lh & Zh & Zm & B). destruct Y as (sp & td' & -> & Sp & Td).
      apply month_text_word in Hm. exists sp, td', tm, ty, th, ti, ts, sign, zh, zm, y, m, d, h, i, s, oh, om.
      rewrite <- ?app_assoc. repeat split; auto; try apply Hy; try apply Hh; try apply Hi; try apply Hs.
Qed.

(** ** Search keys *)
Lemma letters_after p t s : forallb no_letter p = true -> same_letters t (p ++ s) -> exists u, t = p ++ u /\ same_letters u s.
Proof. intros NL H. apply letters_split in H as (u & v & -> & U & V). apply (letters_fixed _ NL) in U as ->. eauto. Qed.
#[global] Instance attr_flag_rule : R AttrFlag G_attr_flag.
Proof.
  assert (N : forall t, some_of ATOM_CHAR t -> exists f, name attribute_flag_table AFExtension t f) by (intros t H; now apply name_atom).
  rule.
  - rewrite !D_or, !D_str. intros [[[[[[H | H] | H] | H] | H] | H] | H];
      try (apply (letters_after (bs "\\")) in H as (u & -> & H); [| reflexivity]; edestruct N as [f NF];
           [eapply letters_atom; [exact H | reflexivity] | exists f; now apply g_af_system]).
    + apply D_ref in H. cbn [rules] in H. apply atom_rule' in H. eexists. now apply g_af_keyword.
    + apply D_ref in H. cbn [rules] in H. apply D_cat in H as (u & v & -> & H & G). apply D_str in H.
      apply letters_fixed in H as ->; [| reflexivity]. apply atom_rule' in G. destruct (N v G) as [f NF]. exists f. now apply g_af_system.
  - intros [v H]. inversion H; subst.
    + apply d_or_r. constructor. cbn [rules]. apply d_cat; [apply D_str; now apply letters_fixed |].
      apply atom_rule'. apply (name_atom attribute_flag_table AFExtension); [reflexivity | eauto].
    + apply d_or_l, d_or_r. constructor. cbn [rules]. now apply atom_rule'.
Qed.
#[global] Instance entry_type_rule : R EntryTypeReq (word entry_type_table).
Proof.
  apply R_ref. intros t. rewrite word_words. cbn [rules]. rewrite D_or, D_ref. cbn [rules]. rewrite D_or, !D_str.
  cbn [map fst words entry_type_table]. tauto.
Qed.
Ltac gist := rewrite <- ?app_assoc; eexists; eapply text_is; [econstructor; eassumption | text].
#[global] Instance modseq_ext_rule : R SearchModseqExt G_modseq_ext.
Proof.
  rule.
  - intros H. dinv. gist.
  - intros [v H]. inversion H; subst. norm. build.
Qed.
Definition G_key (n : nat) : lang search_key := fun t k => G_search_key t k /\ (key_depth k <= n)%nat.
#[global] Instance header_fld_rule : R HeaderFldName G_astring.
Proof. apply R_ref. exact astring_rule. Qed.
Lemma keys_depth n t l : sep_by (bs " ") (G_key n) t l <->
  sep_by (bs " ") G_search_key t l /\ (fold_right Nat.max O (map key_depth l) <= n)%nat.
Proof.
  split.
  - induction 1 as [t k [G L] | t k u l [G L] H [IH M]]; cbn [map fold_right].
    + split; [now constructor | lia].
    + split; [now constructor | lia].
  - intros [H L]. induction H as [t k G | t k u l G H IH]; cbn [map fold_right] in L; constructor; try (split; [assumption | lia]).
    apply IH. lia.
Qed.
Lemma keyword_flag t : D FlagKeyword t <-> some_of ATOM_CHAR t.
Proof. rewrite D_ref. apply atom_rule'. Qed.
Lemma key_to n : (forall m, n = S m -> R (SearchKey m) (G_key m)) -> forall t k, G_key n t k -> D (SearchKey n) t.
Proof.
  intros IH t k [H L]. apply l_ref. cbn [rules].
  destruct H; wordcases; cbn [key_depth] in L;
    try match goal with H : some_of ATOM_CHAR ?t |- _ => apply keyword_flag in H end;
    try (destruct n as [| n]; [lia | pose proof (IH n eq_refl) as IHn; cbn [deeper]]).
  all: repeat match goal with IHn : R (Ref (SearchKey ?n)) _, H : G_search_key ?t ?k |- _ =>
    assert (D (SearchKey n) t) by (apply (spec (SearchKey n)); exists k; split; [assumption | lia]); clear H end.
  all: try match goal with IHn : R (Ref (SearchKey ?n)) _, H : in_parens (sep_by _ G_search_key) ?t ?l |- _ =>
    assert (in_parens (sep_by (bs " ") (G_key n)) t l) by (inversion H; subst; constructor; apply keys_depth; split; [assumption | lia]) end.
  all: build.
Qed.
Ltac keydone := eexists; (split; [solve [econstructor; first [inword | eassumption]] | cbn [key_depth]; lia]).
Lemma key_from n : (forall m, n = S m -> R (SearchKey m) (G_key m)) -> forall t, D (SearchKey n) t -> exists k, G_key n t k.
Proof.
  intros IH t H. apply D_ref in H. cbn [rules] in H. unfold G_key.
  destruct n as [| n]; cbn [deeper] in H; [| pose proof (IH n eq_refl) as IHn]; orcases H.
  all: dinv.
  all: repeat match goal with H : G_atom _ _ |- _ => destruct H as [H _] | H : G_key _ _ _ |- _ => destruct H end.
  all: try keydone.
  match goal with H : in_parens _ _ _ |- _ => inversion H as [u l G]; subst end.
  apply keys_depth in G as [G L]. eexists. split; [apply g_key_and; constructor; exact G |]. cbn [key_depth]. lia.
Qed.
#[global] Instance search_key_rule n : R (SearchKey n) (G_key n).
Proof.
  induction n as [| n IH]; intros t; (split; [| intros [k H]]).
  - apply key_from. intros m E. discriminate.
  - apply (key_to 0) in H; [exact H | intros m E; discriminate].
  - apply key_from. intros m E. injection E as <-. exact IH.
  - apply (key_to (S n)) in H; [exact H | intros m E; injection E as <-; exact IH].
Qed.
#[global] Instance search_keys_rule : R (some (SP ^ SearchKey 8)) (after (bs " ") G_search_keys).
Proof.
  intros t. rewrite (I_some _ _ (search_key_rule 8) t).
  assert (E : forall t l, sep_by (bs " ") (G_key 8) t l <-> G_search_keys t l).
  { intros u l. rewrite keys_depth. split.
    - intros [H L]. constructor; [assumption |]. clear H. induction l; constructor; cbn [map fold_right] in L; [lia |]. apply IHl. lia.
    - intros H. inversion H as [? ? G L]; subst. split; [assumption |]. clear - L. induction L; cbn [map fold_right]; lia. }
  split; intros [l H]; inversion H; subst; exists l; constructor; now apply E.
Qed.
#[global] Instance search_criteria_rule : R SearchCriteria (fun t v => exists tc u, t = tc ++ bs " " ++ u /\ G_charset tc (fst v) /\ G_search_keys u (snd v)).
Proof.
  rule.
  - intros H. rewrite D_cat in H. destruct H as (u & v & -> & H & G). apply (spec (some (SP ^ SearchKey 8))) in G as [l G].
    dinv. eexists (_, _). cbn [fst snd]. eauto.
  - intros [v (tc & u & -> & H & G)]. apply d_cat; [build |]. apply (spec (some (SP ^ SearchKey 8))). eexists. constructor. eassumption.
Qed.
End Tokens.
