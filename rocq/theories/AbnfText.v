(** The rules of AbnfSpec.v and the relations of Grammar.v: response codes, greetings and responses. *)

From Verif Require Import Bytes BytesFacts Features Nom Types Utf8 Conv Base64 ParseResp ValueSpec ValueFacts Grammar SoundTac SoundCap SoundResp
  CompTac CompResp MoreFacts NameFacts AbnfSpec AbnfFacts AbnfCore AbnfCmd AbnfBody AbnfResp.
Open Scope N_scope.
Open Scope abnf_scope.

Section Texts.
Context {F : features}.
Local Notation D := (derives true true).
Ltac rule := apply R_ref; intros t; cbn [rules]; split.

(** ** Lists of charsets *)
Lemma charset_text_spec t : charset_text t <-> exists c, G_charset t c.
Proof.
  split.
  - intros [H | (w & s & -> & Q & T)]; eexists; [now apply g_cs_atom | apply g_cs_quoted; constructor; eassumption].
  - intros [c H]. inversion H as [| u s Q]; subst; [now left |]. inversion Q; subst. right. eauto.
Qed.
Lemma charsets_text_spec t : charsets_text t <-> exists l, sep_by (bs " ") G_charset t l.
Proof.
  split.
  - induction 1 as [t H | t u H _ [l IH]]; apply charset_text_spec in H as [c H]; eexists; [eapply sep_one; eassumption | eapply sep_more; eassumption].
  - intros [l H]. induction H; [apply charsets_one | apply charsets_more; [| assumption]]; apply charset_text_spec; eauto.
Qed.
Lemma badcharset_known t : badcharset_text t -> exists c, G_known_code t c.
Proof.
  intros (k & l & -> & K & H). apply charsets_text_spec in H as [cs H]. eexists. apply g_code_badcharset; [exact K | constructor; exact H].
Qed.

(** ** The known codes; only a list of charsets contains a closing bracket. *)
Ltac nbc := let H := fresh in intros H; cbn in H; repeat (destruct H as [H | H]; [discriminate H |]); destruct H.
Ltac nbt := repeat (apply Forall_app; split); try apply forall_when; repeat (apply Forall_cons; [cbn [fst]; nbc |]); try apply Forall_nil.
Lemma nb_nz t n : G_nz_number t n -> no_bracket t.
Proof. intros ((_ & H & _) & _). exact (nb_digits _ _ H). Qed.
Lemma nb_uids t l : G_uid_set t l -> no_bracket t.
Proof.
  apply nb_sep; [nbc |]. intros u a [v n H | v a' w b H G]; [exact (nb_nz _ _ H) |].
  repeat apply nb_app; [exact (nb_nz _ _ H) | nbc | exact (nb_nz _ _ G)].
Qed.
Lemma known_bracket t c : G_known_code t c -> no_bracket t \/ badcharset_text t.
Proof.
  intros [u a W | k L f u n W X | k u l K X | u l X | k u l K X | k tv v tu w K X Y | k tv v ts s td d K X Y Z | k u s Q K X].
  - left. apply (nb_word _ _ _ W). unfold code_words. nbt.
  - left. assert (E : exists m, digits u m).
    { inversion W as [k' s' a I E]; subst. unfold code_numbers in I. repeat (apply in_app_or in I as [I | I]).
      all: unfold when in I; repeat match type of I with context [if ?b then _ else _] => destruct b end; cbn in I.
      all: repeat (destruct I as [I | I]; [injection I as <- <- <-; first [destruct X as (_ & X & _) | destruct X as ((_ & X & _) & _)]; eauto |]); destruct I. }
    destruct E as (m & E). apply nb_app; [apply (nb_word _ _ _ W); unfold code_numbers; nbt | exact (nb_digits _ _ E)].
  - right. inversion X; subst. exists k, t0. split; [reflexivity |]. split; [exact K |]. apply charsets_text_spec. eauto.
  - left. destruct X as [k w l' z K S Z]. repeat apply nb_app; [apply (nb_letters _ _ K); nbc | refine (nb_sep _ _ _ _ _ (nb_capability _) S); nbc |].
    destruct Z as [-> | [_ ->]]; nbc.
  - left. apply nb_app; [apply (nb_letters _ _ K); nbc |]. inversion X as [w y W]; subst. repeat apply nb_app; [nbc | | nbc].
    inversion W as [| w' y' S]; subst; [nbc |]. refine (nb_sep _ _ _ _ _ _ S); [nbc |].
    intros x b [| x' g G]; [nbc |]. destruct G as [x' g G | x' G]; [| now apply nb_atom].
    apply nb_app; [nbc |]. apply (nb_name _ _ _ _ G). unfold flag_table. nbt.
  - left. repeat apply nb_app; [apply (nb_letters _ _ K); nbc | exact (nb_nz _ _ X) | nbc | exact (nb_nz _ _ Y)].
  - left. repeat apply nb_app; [apply (nb_letters _ _ K); nbc | exact (nb_nz _ _ X) | nbc | exact (nb_uids _ _ Y) | nbc | exact (nb_uids _ _ Z)].
  - left. apply nb_app; [apply (nb_letters _ _ K); nbc | exact (nb_seq _ _ X)].
Qed.
(** A text has at most one known code, and one can tell. *)
Lemma known_unique t c u t' c' u' : G_known_code t c -> G_known_code t' c' -> t ++ bs "]" ++ u = t' ++ bs "]" ++ u' -> u = u'.
Proof.
  intros H H' E. apply (comp_known_code t c (bs "]" ++ u)) in H; [| reflexivity]. apply (comp_known_code t' c' (bs "]" ++ u')) in H'; [| reflexivity].
  rewrite E in H. rewrite H in H'. injection H'. auto.
Qed.
Lemma known_decided i : (exists t c u, i = t ++ bs "]" ++ u /\ G_known_code t c) \/ (forall t u c, i = t ++ bs "]" ++ u -> ~ G_known_code t c).
Proof.
  assert (W : (exists u c, p_resp_text_code i = ROk (bs "]" ++ u) c) \/ (forall u c, p_resp_text_code i <> ROk (bs "]" ++ u) c)).
  { destruct (p_resp_text_code i) as [[| b u] c | | | |]; try (right; intros; discriminate). destruct (beq_spec b "]"%byte) as [-> | N]; [left; exists u, c; reflexivity |].
    right. intros v d E. injection E as E _. auto. }
  destruct W as [(u & c & H) | H].
  - apply sound_resp_text_code in H as (t & -> & H). left. exists t, c, u. auto.
  - right. intros t u c -> G. apply (comp_known_code t c (bs "]" ++ u)) in G; [| reflexivity]. now apply (H u c).
Qed.

(** ** resp-text-code *)
Lemma G_atom_some t a : G_atom t a -> some_of ATOM_CHAR t.
Proof. now intros [H _]. Qed.
Lemma code_char_atom t : some_of ATOM_CHAR t -> many_of CODE_CHAR t.
Proof.
  intros [_ H]. eapply Forall_impl; [| exact H]. intros b [C X]. repeat split; intros ->; apply X; unfold atom_specials, resp_specials; [tauto | |].
  all: do 4 right; left; left; now vm_compute.
Qed.
Ltac ctab := first [left; reflexivity | apply in_or_app; first [left; ctab | right; ctab] | right; ctab].
Ltac intab := unfold code_words, code_numbers; repeat match goal with E : ?b = true |- _ => rewrite E; clear E end; cbn [when]; solve [ctab].
(** a word of the table; a word and a number *)
Ltac cw := left; match goal with H : same_letters ?t ?s |- context [G_known_code ?t] =>
  eexists; apply (code_word s t); [intab | exact H] end.
Ltac cn := left; rewrite app_assoc; match goal with H : same_letters ?t ?s |- context [G_known_code (?k ++ ?u)] =>
  eexists; eapply (code_number (s ++ bs " ") k u); [| apply letters_app; [exact H | now apply letters_fixed] | eassumption]; intab end.
Ltac cwith c := left; eexists; eapply text_is; [eapply c; first [eassumption | kw | constructor; eassumption] | text].
Lemma metadata_words k s t u : same_letters k (bs "METADATA") -> same_letters t s -> u = k ++ bs " " ++ t -> same_letters u (bs "METADATA " ++ s).
Proof. intros K T ->. apply (letters_app k _ (bs "METADATA") (bs " " ++ s)); [exact K |]. apply letters_app; [now apply letters_fixed | exact T]. Qed.
Ltac mw := left; match goal with K : same_letters ?k _, H : same_letters ?t ?s |- context [G_known_code (?k ++ ?sp ++ ?t)] =>
  eexists; apply (code_word (bs "METADATA " ++ s)); [intab | now apply (metadata_words k s t)] end.
Ltac mn := left; match goal with K : same_letters ?k _, H : same_letters ?t ?s |- context [G_known_code (?k ++ ?sp ++ ?t ++ ?sp' ++ ?u)] =>
  eexists; eapply text_is; [eapply (code_number (bs "METADATA " ++ s ++ bs " ") (k ++ sp ++ t ++ sp') u);
    [| apply (metadata_words k (s ++ bs " ") (t ++ sp'));
       [exact K | apply letters_app; [exact H | now apply letters_fixed] | reflexivity] | eassumption]; intab | text] end.
Lemma code_rule t : D RespTextCode t <-> (exists c, G_known_code t c) \/ many_of CODE_CHAR t.
Proof.
  rewrite D_ref. cbn [rules]. split.
  - intros H. orcases H; dinv.
    + cw.
    + match goal with H : optional _ _ _ |- _ => inversion H; subst; clear H end; dinv; [rewrite app_nil_r; cw |]. cwith g_code_badcharset.
    + left. eexists. eapply g_code_capability. eassumption.
    + cw.
    + cwith g_code_permanentflags.
    + cw.
    + cw.
    + cw.
    + cn.
    + cn.
    + cn.
    + cw.
    + cw.
    + cw.
    + mn.
    + mn.
    + mw.
    + mw.
    + cw.
    + match goal with K : same_letters ?k _, A : G_nz_number ?x ?a, B : G_nz_number ?t ?b |- context [?k ++ _ ++ ?x ++ _ ++ ?t] =>
        left; exists (CdAppendUid a b); eapply text_is; [eapply (g_code_appenduid (k ++ bs " ") x a t b); [kw | exact A | exact B] | text] end.
    + match goal with K : same_letters ?k _, A : G_nz_number ?x ?a, B : G_uid_set ?t ?b, C : G_uid_set ?u ?c |- context [?k ++ _ ++ ?x ++ _ ++ ?t ++ _ ++ ?u] =>
        left; exists (CdCopyUid a b c); eapply text_is; [eapply (g_code_copyuid (k ++ bs " ") x a t b u c); [kw | exact A | exact B | exact C] | text] end.
    + cw.
    + cn.
    + cw.
    + cwith g_code_modified.
    + cw.
    + right. rewrite app_nil_r. now apply code_char_atom, (G_atom_some _ x0).
    + right. apply D_some_of in H1 as [_ H1]. apply Forall_app. split; [eapply code_char_atom, G_atom_some; eassumption |].
      constructor; [repeat split; discriminate |]. eapply Forall_impl; [| exact H1]. intros b [(_ & A & B) C]. repeat split; assumption.
    + right. apply D_many_of in H. exact H.
  - intros [[c H] | H].
    + inversion H as [u a W | k L f u n W X | k u l K X | u l X | k u l K X | k tv v tu w K X Y | k tv v ts s td d K X Y Z | k u s Q K X]; subst.
      * inversion W as [? s ? I S]; subst. unfold code_words in I. repeat (apply in_app_or in I as [I | I]).
        all: match type of I with In _ (when ?b _) => destruct b eqn:Q; cbn [when] in I | _ => idtac end; cbn [In] in I.
        all: repeat match type of I with _ \/ _ => destruct I as [I | I] | False => destruct I end; injection I as <- <-.
        all: kwsplit; build.
      * inversion W as [? s ? I S]; subst. unfold code_numbers in I. repeat (apply in_app_or in I as [I | I]).
        all: match type of I with In _ (when ?b _) => destruct b eqn:Q; cbn [when] in I | _ => idtac end; cbn [In] in I.
        all: repeat match type of I with _ \/ _ => destruct I as [I | I] | False => destruct I end; injection I as <- <- <-.
        all: kwsplit; norm; build.
      * kwsplit. norm. build.
      * build.
      * kwsplit. norm. build.
      * kwsplit. norm. build.
      * kwsplit. norm. build.
      * kwsplit. norm. build.
    + apply d_or_r, l_extra, D_many_of. exact H.
Qed.
(** ** resp-text *)
Lemma tac_rule u : (exists x, G_text_after_code u x) <-> (exists x, u = bs " " ++ x /\ some_of TEXT_CHAR x) \/ (quirk_missing_text = true /\ u = []).
Proof.
  split.
  - intros [x H]. inversion H; subst; eauto.
  - intros [(x & -> & H) | [Q ->]]; eexists; [now apply g_tac_text | now apply g_tac_missing].
Qed.
Lemma text_rule' t : D Text t <-> some_of TEXT_CHAR t.
Proof. rewrite D_ref. cbn [rules]. apply D_some_of. Qed.
Lemma coded c u x : D RespTextCode c -> G_text_after_code u x -> one_code (bs "[" ++ c ++ bs "]" ++ u) -> exists v, G_resp_text (bs "[" ++ c ++ bs "]" ++ u) v.
Proof.
  intros H T O. apply code_rule in H as [[k K] | H]; [eexists; eapply g_rt_code; eassumption |].
  destruct (known_decided (c ++ bs "]" ++ u)) as [(c' & k & u' & E & K) | N]; [| eexists; eapply g_rt_other; eassumption].
  destruct (known_bracket _ _ K) as [B | B].
  - assert (C : no_bracket c) by (intros I; unfold many_of in H; rewrite Forall_forall in H; now destruct (H _ I) as [Z _]).
    apply (bracket_split _ _ _ _ C B) in E as ->. eexists. eapply g_rt_code; eassumption.
  - rewrite E. destruct (proj2 (tac_rule u')) as [x' T']; [| eexists; eapply g_rt_code; eassumption].
    apply (O c' u'); [now rewrite E | exact B].
Qed.
#[global] Instance resp_text_rule : R RespText G_resp_text.
Proof.
  rule.
  - intros H. orcases H.
    + apply D_limit_t in H as [H N]. apply text_rule' in H. eexists. now apply g_rt_text.
    + apply D_limit_t in H as [H O]. apply D_cat in H as (a & r & -> & A & H). apply D_cat in H as (c & r' & -> & C & H).
      apply D_cat in H as (b & r & -> & B & H). apply D_cat in H as (sp & x & -> & S & X). apply D_str in A, B, S. fixed A. fixed B. fixed S.
      apply text_rule' in X. eapply (coded c (bs " " ++ x)); [exact C | now apply g_tac_text | exact O].
    + apply (proj1 (D_extra_t _ _)) in H. apply D_feature in H as [Q H]. apply D_limit_t in H as [H O].
      apply D_cat in H as (a & r & -> & A & H). apply D_cat in H as (c & b & -> & C & B). apply D_str in A, B. fixed A. fixed B.
      apply (coded c [] (bs "...")); [exact C | now apply g_tac_missing | exact O].
  - intros [v H]. assert (O : forall t c u x, G_known_code t c -> G_text_after_code u x -> one_code (bs "[" ++ t ++ bs "]" ++ u)).
    { intros a c u x K T c' u' E B. injection E as E. apply badcharset_known in B as [k' K']. rewrite <- (known_unique _ _ _ _ _ _ K K' E).
      apply tac_rule. eauto. }
    assert (O' : forall t u, (forall t' u' c, t ++ bs "]" ++ u = t' ++ bs "]" ++ u' -> ~ G_known_code t' c) -> one_code (bs "[" ++ t ++ bs "]" ++ u)).
    { intros a u N c' u' E B. injection E as E. apply badcharset_known in B as [k' K']. now destruct (N _ _ _ E K'). }
    assert (W : forall c u x, D RespTextCode c -> G_text_after_code u x -> one_code (bs "[" ++ c ++ bs "]" ++ u) -> D (rules RespText) (bs "[" ++ c ++ bs "]" ++ u)).
    { intros c u x C T Q. destruct T as [x T | M]; cbn [rules].
      - apply d_or_l, d_or_r, d_limit; [| auto]. apply d_cat; [leaf |]. apply d_cat; [exact C |]. apply d_cat; [leaf |].
        apply d_cat; [leaf | now apply text_rule'].
      - apply d_or_r, l_extra, d_feature; [exact M |]. rewrite app_nil_r in *. apply d_limit; [| auto].
        apply d_cat; [leaf |]. apply d_cat; [exact C | leaf]. }
    inversion H; subst.
    + apply d_or_l, d_or_l, d_limit; [now apply text_rule' | auto].
    + eapply W; [apply code_rule; eauto | eassumption | eapply O; eassumption].
    + eapply W; [apply code_rule; eauto | eassumption | eapply O'; eassumption].
Qed.

(** ** Greetings and responses *)
Lemma resp_text_of t : D RespText t <-> exists c x, G_resp_text t (c, x).
Proof. rewrite (spec RespText t). split; [intros [[c x] H]; eauto | intros (c & x & H); eauto]. Qed.
Lemma cat_sp a b t : D (a ^ SP ^ b) t <-> exists u v, t = u ++ bs " " ++ v /\ D a u /\ D b v.
Proof.
  rewrite D_cat. setoid_rewrite D_cat. split.
  - intros (u & w & -> & U & s & v & -> & S & V). apply D_str in S. fixed S. eauto.
  - intros (u & v & -> & U & V). exists u, (bs " " ++ v). split; [reflexivity |]. split; [exact U |]. exists (bs " "), v. repeat split; [| exact V].
    now apply D_str, letters_fixed.
Qed.
Lemma cat_crlf a t : D (a ^ CRLF) t <-> exists u e, t = u ++ e /\ D a u /\ eol e.
Proof. rewrite D_cat. setoid_rewrite crlf_rule. reflexivity. Qed.
Lemma star_line a t : D ("*" ^ SP ^ a ^ CRLF) t <-> exists u e, t = bs "* " ++ u ++ e /\ D a u /\ eol e.
Proof.
  rewrite cat_sp. setoid_rewrite cat_crlf. setoid_rewrite D_str. split.
  - intros (s & w & -> & S & u & e & -> & U & E). fixed S. exists u, e. auto.
  - intros (u & e & -> & U & E). exists (bs "*"), (u ++ e). split; [reflexivity |]. split; [now apply letters_fixed | eauto].
Qed.
Lemma bye_rule t : D RespCondBye t <-> exists k u c x, t = k ++ u /\ k ~ "BYE " /\ G_resp_text u (c, x).
Proof.
  rewrite D_ref. cbn [rules]. rewrite cat_sp. setoid_rewrite resp_text_of. setoid_rewrite D_str. split.
  - intros (k & u & -> & K & c & x & H). exists (k ++ bs " "), u, c, x. rewrite <- app_assoc. split; [reflexivity |]. split; [kw | exact H].
  - intros (k & u & c & x & -> & K & H). kwsplit. exists k0, u. norm. eauto 6.
Qed.
#[global] Instance greeting_rule : R Greeting G_greeting.
Proof.
  rule.
  - intros H. apply star_line in H as (u & e & -> & H & E). apply D_or in H as [H | H].
    + apply D_ref in H. cbn [rules] in H. apply cat_sp in H as (k & v & -> & K & H). apply resp_text_of in H as (c & x & H).
      rewrite D_or, !D_str in K. destruct K as [K | K]; eexists; (eapply text_is; [eapply (g_greeting (k ++ bs " ") _ v); [| exact H | exact E] | text]).
      * apply (word_intro _ _ (bs "OK ")); [tab | kw].
      * apply (word_intro _ _ (bs "PREAUTH ")); [tab | kw].
    + apply bye_rule in H as (k & v & c & x & -> & K & H). rewrite <- app_assoc. eexists. eapply g_greeting; [| exact H | exact E].
      eapply word_intro; [| exact K]. tab.
  - intros [g H]. inversion H as [k kind u c x e W G E]; subst. apply star_line. exists (k ++ u), e. rewrite <- app_assoc. split; [reflexivity |].
    split; [| exact E]. clear H. wordcases.
    + apply d_or_l, l_ref. cbn [rules]. apply cat_sp. kwsplit. exists k0, u. norm. split; [reflexivity |]. split; [apply d_or_l; now apply D_str | apply resp_text_of; eauto].
    + apply d_or_l, l_ref. cbn [rules]. apply cat_sp. kwsplit. exists k0, u. norm. split; [reflexivity |]. split; [apply d_or_r; now apply D_str | apply resp_text_of; eauto].
    + apply d_or_r, bye_rule. exists k, u, c, x. auto.
Qed.
Lemma state_rule t : D RespCondState t <-> exists b, G_status_body t b.
Proof.
  rewrite D_ref. cbn [rules]. rewrite cat_sp. setoid_rewrite resp_text_of. split.
  - intros (k & u & -> & K & c & x & H). rewrite app_assoc. orcases K; apply D_str in K; eexists; eapply g_status_body; try exact H.
    + apply (word_intro _ _ (bs "OK ")); [tab | kw].
    + apply (word_intro _ _ (bs "NO ")); [tab | kw].
    + apply (word_intro _ _ (bs "BAD ")); [tab | kw].
  - intros [b H]. inversion H as [k kind u c x W G]; subst. clear H. wordcases; kwsplit; exists k0, u; norm; (split; [reflexivity |]); (split; [| eauto]).
    + build.
    + build.
    + build.
Qed.
Lemma base64_decided t : (exists p, base64 p t) \/ (forall p, ~ base64 p t).
Proof.
  destruct (b64_decode t) as [p |] eqn:E; [left; exists p; now apply base64_spec |]. right. intros p H. apply base64_spec in H. congruence.
Qed.
#[global] Instance response_rule : R Response G_response.
Proof.
  rule.
  - intros H. orcases H; apply D_ref in H; cbn [rules] in H; orcases H.
    + (* a continuation request *)
      apply cat_sp in H as (p & w & -> & P & H). apply D_str in P. fixed P. apply cat_crlf in H as (t & e & -> & H & E).
      change (bs "+" ++ bs " " ++ t ++ e) with (bs "+ " ++ t ++ e).
      destruct (base64_decided t) as [[q B] | B]; [eexists; eapply g_rsp_base64; eassumption |].
      apply D_or in H as [H | H]; [apply resp_text_of in H as (c & x & H); eexists; eapply g_rsp_continue; eassumption |].
      apply (spec AbnfSpec.Base64) in H as [q H]. now destruct (B q).
    + apply (proj1 (D_extra_t _ _)) in H. apply D_feature in H as [Q H]. apply cat_crlf in H as (p & e & -> & P & E).
      apply D_str in P. fixed P. eexists. now apply g_rsp_empty.
    + (* data *)
      apply star_line in H as (w & e & -> & H & E). rename w into t.
      assert (W : D RespCondState t \/ D RespCondBye t \/ D (MailboxData / MessageData / CapabilityData / EnableData / Feature ext_id IdResponse) t)
        by (rewrite !D_or in *; tauto).
      destruct W as [W | [W | W]].
      * apply state_rule in W as [b W]. eexists. eapply g_rsp_untagged; eassumption.
      * apply bye_rule in W as (k & u & c & x & -> & K & W). rewrite <- app_assoc. eexists. eapply g_rsp_bye; eassumption.
      * apply data_rule in W as [d W]. eexists. eapply g_rsp_data; eassumption.
    + apply D_ref in H. cbn [rules] in H. apply cat_sp in H as (tt & w & -> & T & H). apply cat_crlf in H as (t & e & -> & H & E).
      apply (spec Tag) in T as [tag T]. apply state_rule in H as [b H]. eexists. eapply g_rsp_tagged; eassumption.
    + apply D_ref in H. cbn [rules] in H. apply star_line in H as (w & e & -> & H & E). rename w into t.
      apply bye_rule in H as (k & u & c & x & -> & K & H). rewrite <- app_assoc. eexists. eapply g_rsp_bye; eassumption.
  - intros [v H]. inversion H as [t' c x e G N E | t' p e G E | e Q E | t' d e G E | t' b e G E | tt tag t' b e T G E | k t' c x e K G E]; subst; clear H; try rename t' into t.
    + do 2 apply d_or_l. apply l_ref. cbn [rules]. apply d_or_l. apply cat_sp. exists (bs "+"), (t ++ e). split; [reflexivity |].
      split; [now apply D_str, letters_fixed |]. apply cat_crlf. exists t, e. repeat split; [| assumption]. apply d_or_l, resp_text_of. eauto.
    + do 2 apply d_or_l. apply l_ref. cbn [rules]. apply d_or_l. apply cat_sp. exists (bs "+"), (t ++ e). split; [reflexivity |].
      split; [now apply D_str, letters_fixed |]. apply cat_crlf. exists t, e. repeat split; [| assumption]. apply d_or_r, (spec AbnfSpec.Base64). eauto.
    + do 2 apply d_or_l. apply l_ref. cbn [rules]. apply d_or_r, l_extra, d_feature; [assumption |]. apply cat_crlf. exists (bs "+"), e.
      repeat split; [now apply D_str, letters_fixed | assumption].
    + apply d_or_l, d_or_r, l_ref. cbn [rules]. apply star_line. exists t, e. repeat split; [| assumption].
      assert (W : D (MailboxData / MessageData / CapabilityData / EnableData / Feature ext_id IdResponse) t) by (apply data_rule; eauto).
      rewrite !D_or in *. tauto.
    + apply d_or_l, d_or_r, l_ref. cbn [rules]. apply star_line. exists t, e. repeat split; [| assumption].
      assert (W : D RespCondState t) by (apply state_rule; eauto). rewrite !D_or in *. tauto.
    + apply d_or_r, l_ref. cbn [rules]. apply d_or_l, l_ref. cbn [rules]. apply cat_sp. exists tt, (t ++ e). split; [reflexivity |].
      split; [apply (spec Tag); eauto |]. apply cat_crlf. exists t, e. repeat split; [| assumption]. apply state_rule. eauto.
    + apply d_or_r, l_ref. cbn [rules]. apply d_or_r, l_ref. cbn [rules]. apply star_line. exists (k ++ t), e. rewrite <- app_assoc. repeat split; [| assumption].
      apply bye_rule. exists k, t, c, x. auto.
Qed.
End Texts.
