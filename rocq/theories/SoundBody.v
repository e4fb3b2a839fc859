(** Soundness of the parsers of ParseBody.v. *)

From Verif Require Import Bytes BytesFacts Dec Features Nom Types Utf8 Conv Base64 Date FragSpec
  ParseCore ParseBody ParserFacts QuotedFacts OkCore ValueSpec ValueFacts Grammar SoundTac SoundCore.
Open Scope nat_scope.

Ltac sce := sfin ltac:(econstructor; eassumption).

Ltac sda := sd; repeat match goal with G : after _ _ _ _ |- _ => inversion G; subst; clear G end.

Section SoundBody.
Context {F : features}.

(** Envelopes *)
Lemma many_sp t l : many (fun t (_ : byte) => t = bs " ") t l -> Forall (eq bSP) t.
Proof. induction 1 as [| t a u l -> _ IH]; [constructor | now constructor]. Qed.
Lemma sound_spaces : sound (many0 sp) (fun t _ => Forall (eq bSP) t).
Proof.
  eapply sound_weaken.
  - apply sound_many0 with (L := fun t _ => t = bs " "). intros i r a H. apply reads_sp in H. eauto.
  - intros t a H. now apply many_sp in H.
Qed.
Lemma sound_address : sound p_address G_address.
Proof.
  ssplit. unfold p_address in H. apply bind_inv in H as (r1 & u & E & H).
  assert (Z : exists z, i = z ++ r1 /\
    (z = [] \/ (quirk_spaces_between_addresses = true /\ Forall (eq bSP) z))).
  { destruct quirk_spaces_between_addresses.
    - apply bind_inv in E as (r2 & l & E & H2). apply sound_spaces in E as (z & -> & G). inv H2. eauto.
    - inv E. exists []. auto. }
  destruct Z as (z & -> & Z). clear E. sd. sce.
Qed.
Lemma sound_nil i r u : p_nil i = ROk r u -> exists t, i = t ++ r /\ G_nil t.
Proof. intros H. apply kw_inv in H as (k & -> & K). eauto. Qed.
Ltac snil := match goal with H : p_nil _ = ROk _ _ |- _ =>
  let t := fresh "t" in let G := fresh "N" in apply sound_nil in H as (t & H & G); subst end.
Hint Resolve sound_address : soundb.
Lemma sound_addresses : sound p_addresses G_addresses.
Proof. ssplit. unfold p_addresses in H. sd; try snil; sce. Qed.
Hint Resolve sound_addresses : soundb.
Lemma sound_envelope : sound p_envelope G_envelope.
Proof. ssplit. unfold p_envelope in H. sd. sce. Qed.
Hint Resolve sound_envelope : soundb.

(** Parts of bodies *)
Lemma sound_pair : sound p_pair G_pair.
Proof. ssplit. unfold p_pair in H. sd. sce. Qed.
Hint Resolve sound_pair : soundb.
Lemma sound_params : sound p_body_fld_param G_body_params.
Proof. ssplit. unfold p_body_fld_param in H. sd; try snil; sce. Qed.
Hint Resolve sound_params : soundb.
Lemma sound_enc : sound p_body_fld_enc G_body_enc.
Proof.
  ssplit. unfold p_body_fld_enc in H. destruct quirk_body_fld_enc_nil_to_empty eqn:Q.
  - sd. inversion G; subst.
    + sfin ltac:(apply g_enc; eassumption).
    + sfin ltac:(apply g_enc_nil; eassumption).
  - sd. sfin ltac:(apply g_enc; eassumption).
Qed.
Lemma sound_octets : sound p_body_fld_octets G_octets.
Proof.
  ssplit. unfold p_body_fld_octets in H. destruct quirk_rectify_numbers eqn:Q.
  - apply alt_inv in H as [H | [_ H]]; sd.
    + sfin ltac:(apply g_octets; eassumption).
    + inversion G; subst. sfin ltac:(eapply g_octets_negative; eassumption).
  - sd. sfin ltac:(apply g_octets; eassumption).
Qed.
Hint Resolve sound_enc sound_octets : soundb.
Lemma sound_fields : sound p_body_fields G_body_fields.
Proof. ssplit. unfold p_body_fields in H. sd. sce. Qed.
Hint Resolve sound_fields : soundb.
Lemma sound_extension n : sound (p_body_extension (S n)) (G_body_extension n).
Proof.
  induction n as [| n IH].
  - ssplit. cbn [p_body_extension] in H.
    apply alt_inv in H as [H | [_ H]]; [sd; sce |].
    apply alt_inv in H as [H | [_ H]]; [sd; sce |].
    apply alt_inv in H as [H | [_ H]]; [| discriminate H].
    apply pmap_inv in H as (x & H & ->). apply vecn_inv in H. unfold delimited in H.
    apply bind_inv in H as (r1 & u & E & H). apply bind_inv in H as (r2 & l & E2 & H).
    apply bind_inv in E2 as (r3 & y & E3 & _). discriminate E3.
  - ssplit. change (p_body_extension (S (S n))) with
     (alt [pmap BENString p_nstring; pmap BENumber p_number;
         pmap BEList (vec1 (delimited (tg "(") (sep_list1 sp (p_body_extension (S n))) (tg ")")))]) in H.
    sd; sce.
Qed.
Hint Resolve sound_extension : soundb.
Lemma sound_dsp : sound p_body_fld_dsp G_body_dsp.
Proof. ssplit. unfold p_body_fld_dsp in H. sd; try snil; sce. Qed.
Lemma sound_lang : sound p_body_fld_lang G_body_lang.
Proof.
  ssplit. unfold p_body_fld_lang in H. apply alt_inv in H as [H | [_ H]]; sd.
  - inversion G; subst; sce.
  - sce.
Qed.
Hint Resolve sound_dsp sound_lang : soundb.
Lemma sound_location : sound p_location G_location.
Proof. ssplit. unfold p_location in H. sd. sce. Qed.
Hint Resolve sound_location : soundb.
Lemma sound_language : sound p_language G_language.
Proof. ssplit. unfold p_language in H. sd. sce. Qed.
Hint Resolve sound_language : soundb.
Lemma sound_disposition : sound p_disposition G_disposition.
Proof. ssplit. unfold p_disposition in H. sd. sce. Qed.
Hint Resolve sound_disposition : soundb.
Lemma sound_single_ext : sound p_body_ext_1part G_single_ext.
Proof. ssplit. unfold p_body_ext_1part in H. sd. sce. Qed.
Lemma sound_multi_ext : sound p_body_ext_mpart G_multi_ext.
Proof. ssplit. unfold p_body_ext_mpart in H. sd. sce. Qed.
Hint Resolve sound_single_ext sound_multi_ext : soundb.

(** Bodies *)
Lemma sound_body_f fuel d : sound (p_body_f fuel (S (S d))) (G_body d).
Proof.
  revert d. induction fuel as [| fuel IH]; intros d i r a H; [discriminate |].
  change (p_body_f (S fuel) (S (S d))) with
    (delimited (tg "(")
        (alt [p_body_type_1part (p_body_f fuel) (S d); p_body_type_mpart (p_body_f fuel) (S d)])
        (tg ")")) in H.
  unfold p_body_type_1part, p_body_type_mpart, p_body_type_msg, p_body_type_text, p_body_type_basic,
    p_media_text in H.
  unfold delimited in H. apply bind_inv in H as (r1 & u & E & H). apply tag_inv in E as ->.
  apply bind_inv in H as (r2 & b & E & H). apply bind_inv in H as (r3 & u3 & E2 & H).
  apply tag_inv in E2 as ->. inv H.
  apply alt_inv in E as [E | [_ E]].
  - apply bind_inv in E as (r4 & [bf sf] & E & H). apply bind_inv in H as (r5 & x & E2 & H).
    inv H. eapply sound_use in E2; [| s_auto]. destruct E2 as (tx & -> & Gx).
    apply alt_inv in E as [E | [_ E]]; [| apply alt_inv in E as [E | [_ E]]].
    + apply bind_inv in E as (r5 & u5 & E5 & E). apply kw_inv in E5 as (k5 & -> & K5).
      pose proof (IH 5) as IH5. clear IH. sd.
      assert (K : same_letters (k5 ++ bs " ") (bs """MESSAGE"" ""RFC822"" ")).
      { apply (Forall2_app K5 (l2' := bs " ") (l2 := bs " ")). now apply same_letters_spec. }
      eexists. split; [| eapply (g_body_message d (k5 ++ bs " ")); eassumption].
      rewrite <- ?app_assoc. reflexivity.
    + sd. sfin ltac:(eapply g_body_text; eassumption).
    + apply alt_inv in E as [E | [_ E]]; [| discriminate E]. sd.
      sfin ltac:(eapply g_body_basic; eassumption).
  - apply alt_inv in E as [E | [_ E]]; [| discriminate E].
    destruct d as [| d].
    + exfalso. apply bind_inv in E as (r4 & l & E & H). apply vecn_inv in E.
      apply bind_inv in E as (r5 & y & E & H'). destruct fuel; [discriminate E |].
      cbn [p_body_f p_body_type_1part p_body_type_mpart] in E.
      apply bind_inv in E as (r6 & u6 & _ & E). apply bind_inv in E as (r7 & u7 & E & _). discriminate E.
    + specialize (IH d). sd. sfin ltac:(eapply g_body_multi; eassumption).
Qed.
Lemma sound_body d : sound (p_body (S (S d))) (G_body d).
Proof. intros i r a H. now apply sound_body_f in H. Qed.
Hint Resolve sound_body : soundb.

(** Fetch items *)
Lemma sound_header_list : sound p_header_list G_header_list.
Proof. unfold p_header_list, G_header_list. s_auto. Qed.
Lemma sound_part : sound p_section_part G_part.
Proof. unfold p_section_part, G_part. s_auto. Qed.
Hint Resolve sound_header_list sound_part : soundb.
Inductive G_msgtext : lang part_specifier :=
| gm_header k : k ~ "HEADER" -> G_msgtext k PSHeader
| gm_fields k t l : k ~ "HEADER.FIELDS" -> G_header_list t l -> G_msgtext (k ++ bs " " ++ t) (PSHeaderFields l)
| gm_fields_not k t l : k ~ "HEADER.FIELDS.NOT" -> G_header_list t l ->
    G_msgtext (k ++ bs " " ++ t) (PSHeaderFieldsNot l)
| gm_text k : k ~ "TEXT" -> G_msgtext k PSText.
Lemma sound_msgtext : sound p_section_msgtext G_msgtext.
Proof. ssplit. unfold p_section_msgtext in H. sd; sce. Qed.
Hint Resolve sound_msgtext : soundb.
Lemma sound_section_spec : sound p_section_spec G_section_spec.
Proof.
  ssplit. unfold p_section_spec in H. apply alt_inv in H as [H | [_ H]].
  - apply expect_inv in H as (x & H & E). sd.
    inversion G; subst; injection E as <-;
    (eexists; split; [reflexivity |]); [eapply (g_sec_header []) | eapply (g_sec_fields []) |
      eapply (g_sec_fields_not []) | eapply (g_sec_text [])]; try constructor; assumption.
  - apply alt_inv in H as [H | [_ H]]; [| discriminate H]. unfold p_section_text in H.
    sd; try (inversion G0; subst).
    + sfin ltac:(eapply (g_sec_header (t ++ bs ".")); [constructor |]; eassumption).
    + sfin ltac:(eapply (g_sec_fields (t ++ bs ".")); [constructor | |]; eassumption).
    + sfin ltac:(eapply (g_sec_fields_not (t ++ bs ".")); [constructor | |]; eassumption).
    + sfin ltac:(eapply (g_sec_text (t ++ bs ".")); [constructor |]; eassumption).
    + sfin ltac:(eapply g_sec_mime; eassumption).
    + sfin ltac:(eapply g_sec_part; eassumption).
Qed.
Hint Resolve sound_section_spec : soundb.
Lemma sound_section : sound p_section G_section.
Proof.
  ssplit. unfold p_section, delimited in H. apply bind_inv in H as (r1 & u & E & H).
  apply bind_inv in H as (r2 & o & E2 & H). eapply sound_use in E2; [| s_auto].
  destruct E2 as (t & -> & G). sd. sce.
Qed.
Lemma sound_section_binary : sound p_section_binary G_section_binary.
Proof. ssplit. unfold p_section_binary in H. sd. inversion G; subst; [exists (bs "[]"); split; [reflexivity | constructor] | sce]. Qed.
Lemma sound_partial : sound p_partial G_partial.
Proof. ssplit. unfold p_partial in H. sd. sce. Qed.
Hint Resolve sound_section sound_section_binary sound_partial : soundb.
Lemma sound_fetch_att : sound p_fetch_att G_fetch_att.
Proof.
  ssplit. unfold p_fetch_att in H.
  assert (W : forall s k v, In (s, v) fetch_words -> same_letters k s -> G_fetch_att k v).
  { intros s k v I S. apply g_att_word. econstructor; eassumption. }
  unfold fetch_words in W. sd; rewrite ?Gate in W;
    first [sfin ltac:(eapply W; [in_table | eassumption]) | clear W; sce].
Qed.

(** Fetch results *)
Lemma opt_sep {A} (L : lang A) t o : optional (sep_by (bs " ") L) t o -> list_of (bs " ") L t (dflt o).
Proof. intros H. inversion H; subst; now constructor. Qed.
Lemma sound_nstring8 : sound p_nstring8 G_nstring8.
Proof. ssplit. unfold p_nstring8 in H. sd; sce. Qed.
Hint Resolve sound_nstring8 : soundb.
Definition p_origin : parser N := delimited (tg "<") p_number (tg ">").
Lemma sound_origin : sound p_origin G_origin.
Proof.
  ssplit. unfold p_origin, delimited in H. sd. sce.
Qed.
Lemma sound_msg_att : sound (alt [p_msg_att_dynamic; p_msg_att_static]) G_msg_att.
Proof.
  intros i r a H. apply alt_inv in H as [H | [_ H]].
  - unfold p_msg_att_dynamic in H. apply alt_inv in H as [H | [_ H]].
    + apply pmap_inv in H as (x & H & ->). apply bind_inv in H as (r1 & u & E & H).
      eapply sound_use in H; [| s_auto]. destruct H as (t & -> & G). sd.
      inversion G; subst. sfin ltac:(eapply g_ma_flags; [eassumption | constructor; eapply opt_sep; eassumption]).
    + sd. sfin ltac:(eapply g_ma_modseq; eassumption).
  - apply alt_inv in H as [H | [_ H]]; [| discriminate H]. unfold p_msg_att_static in H.
    change (delimited (tg "<") p_number (tg ">")) with p_origin in H.
    pose proof sound_origin.
    repeat (apply alt_inv in H as [H | [_ H]]); [.. | discriminate H]; sd; sce.
Qed.
Hint Resolve sound_msg_att : soundb.
Lemma sound_msg_att_list : sound p_msg_att (in_parens (sep_by (bs " ") G_msg_att)).
Proof. unfold p_msg_att. s_auto. Qed.

(** Search keys *)
Definition G_key n : lang search_key := fun t k => G_search_key t k /\ key_depth k < n.
Lemma sep_by_split {A} s (L M : lang A) (Q : A -> Prop) t l : (forall t a, L t a -> M t a /\ Q a) ->
  sep_by s L t l -> sep_by s M t l /\ Forall Q l.
Proof.
  intros H. induction 1 as [t a G | t a u l G _ [IH1 IH2]]; apply H in G as [G1 G2].
  - split; [now constructor | auto].
  - split; [now constructor | auto].
Qed.
Lemma max_le l n : l <> [] -> Forall (fun k => key_depth k < n) l ->
  fold_right Nat.max 0 (map key_depth l) < n.
Proof.
  intros N. induction 1 as [| k l H L IH]; [contradiction |]. destruct l as [| k' l].
  - cbn. lia.
  - specialize (IH ltac:(discriminate)). cbn in *. lia.
Qed.
Lemma sep_by_ne {A} s (L : lang A) t l : sep_by s L t l -> l <> [].
Proof. destruct 1; discriminate. Qed.
Lemma sound_search_key n : sound (p_search_key n) (G_key n).
Proof.
  induction n as [| n IH]; intros i r a H; [discriminate |].
  cbn [p_search_key] in H.
  assert (K : forall t k, G_search_key t k -> key_depth k = 0 -> G_key (S n) t k)
    by (intros; split; [assumption | lia]).
  assert (Ww : forall s k v, In (s, v) search_words -> same_letters k s -> key_depth v = 0 -> G_key (S n) k v).
  { intros s k v I S D. apply K; [| assumption]. apply g_key_word. econstructor; eassumption. }
  assert (Wa : forall s f k t x, In (s, f) search_astring -> same_letters k s -> G_astring t x ->
    key_depth (f x) = 0 -> G_key (S n) (k ++ bs " " ++ t) (f x)).
  { intros. apply K; [| assumption]. apply g_key_astring; [| assumption]. econstructor; eassumption. }
  assert (Wd : forall s f k t x, In (s, f) search_date -> same_letters k s -> G_date t x ->
    key_depth (f x) = 0 -> G_key (S n) (k ++ bs " " ++ t) (f x)).
  { intros. apply K; [| assumption]. apply g_key_date; [| assumption]. econstructor; eassumption. }
  unfold search_words, search_astring, search_date in *. unfold p_search_modsequence in H.
  repeat (apply alt_inv in H as [H | [_ H]]); [.. | discriminate H].
  all: sda.
  all: try (solve [clear Wa Wd; sfin ltac:(eapply Ww; [in_table | eassumption | reflexivity])]).
  all: clear Ww.
  all: try (solve [clear Wd; sfin ltac:(eapply Wa; [in_table | eassumption | eassumption | reflexivity])]).
  all: clear Wa.
  all: try (solve [sfin ltac:(eapply Wd; [in_table | eassumption | eassumption | reflexivity])]).
  all: clear Wd; repeat match goal with G : G_atom _ _ |- _ => destruct G as [? ->] end.
  all: try (solve [sfin ltac:(apply K; [econstructor; eassumption | reflexivity])]).
  - match goal with G : G_key _ _ _ |- _ => destruct G as [G D] end.
    sfin ltac:(split; [apply g_key_not; eassumption | cbn; lia]).
  - repeat match goal with G : G_key _ _ _ |- _ => destruct G as [? ?] end.
    sfin ltac:(split; [apply g_key_or; eassumption | cbn; lia]).
  - match goal with G : in_parens _ _ _ |- _ => inversion G as [u v G2]; subst; clear G end.
    apply sep_by_split with (M := G_search_key) (Q := fun k => key_depth k < n) in G2 as [G1 G2];
      [| auto].
    pose proof (sep_by_ne _ _ _ _ G1).
    sfin ltac:(split; [apply g_key_and; constructor; eassumption | cbn; apply -> Nat.succ_lt_mono; now apply max_le]).
Qed.
Lemma search_keys_of n t l : sep_by (bs " ") (G_key (S n)) t l ->
  sep_by (bs " ") G_search_key t l /\ Forall (fun k => key_depth k <= n) l.
Proof. apply sep_by_split. intros t' k [H1 H2]. split; [assumption | lia]. Qed.
Lemma sound_search_keys : sound p_search_keys G_search_keys.
Proof.
  unfold p_search_keys, vec1. apply sound_vecn.
  apply sound_weaken with (L := sep_by (bs " ") (G_key 9)).
  - exact (sound_sep1 _ _ _ _ (sound_search_key 9) reads_sp).
  - intros t l G. apply search_keys_of in G as [G1 G2]. exact (g_search_keys _ _ G1 G2).
Qed.
Lemma sound_search_criteria i r c ks : p_search_criteria i = ROk r (c, ks) ->
  exists t u, i = t ++ bs " " ++ u ++ r /\ G_charset t c /\ G_search_keys u ks.
Proof.
  intros H. unfold p_search_criteria in H. pose proof sound_search_keys. sd.
  exists t, t0. auto.
Qed.
End SoundBody.

#[export] Hint Resolve sound_envelope sound_body sound_fetch_att sound_nstring8 sound_section
  sound_section_binary sound_msg_att sound_msg_att_list sound_search_keys : soundb.
