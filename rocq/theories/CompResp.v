(** Completeness of the parsers of ParseResp.v: data and response codes. *)

From Verif Require Import Bytes BytesFacts Dec Features Nom Types Utf8 Conv Base64 Date Valid FragSpec FragFacts
  EncodeCtx Encode EncodeFacts ParseCore ParseBody ParseCmd ParseResp ParserFacts QuotedFacts OkCore OkResp RtFacts RtTac RtCore RtBody
  ValueSpec ValueFacts Grammar SoundTac SoundCore SoundCap CompTac CompCore CompBody CompCmd.
Open Scope nat_scope.

Section CompResp.
Context {F : features}.

Lemma comp_delimiter : complete p_delimiter G_delimiter yes.
Proof.
  intros t x s G N. unfold p_delimiter. destruct G as [t b [c w T Q] | t G]; [| ok].
  flat. apply alt_here. eapply pmap_go; [| reflexivity]. unfold delimited, dquote.
  eapply bind_go; [now apply char_go |]. cbn [app].
  eapply bind_go; [apply quoted_char_go; eassumption |]. eapply bind_go; [now apply char_go |]. reflexivity.
Qed.
Definition is_delim (b : byte) : bool := beq b bDQ || beq b "N"%byte || beq b "n"%byte.
Lemma beg_delimiter : begins G_delimiter is_delim.
Proof.
  intros t x [u b [c w T Q] | u G]; [reflexivity |]. rewrite <- (app_nil_r u). unfold G_nil in G. nxg.
Qed.
Hint Resolve comp_delimiter : compdb.
Hint Resolve beg_delimiter : begdb.
Lemma comp_strings : complete (vec1 (delimited (char "("%byte) (sep_list1 sp p_string) (char ")"%byte)))
  (in_parens (sep_by (bs " ") G_string)) yes.
Proof.
  apply complete_vecn; [| apply parens_len, sep_by_len].
  eapply complete_parens; [apply (comp_list1 p_string G_string yes (isb ")"%byte)); [exact comp_string | reflexivity ..] | reflexivity
    | exact openc_go | exact closec_go].
Qed.
Hint Resolve comp_strings : compdb.
Lemma comp_namespace_ext : complete p_namespace_ext G_namespace_ext yes.
Proof. intros t x s [] N; flat; unfold p_namespace_ext; ok. Qed.
Lemma beg_namespace_ext : begins G_namespace_ext (isb " "%byte).
Proof. intros t x []. reflexivity. Qed.
Lemma comp_namespace_exts : complete (many0 p_namespace_ext) (many G_namespace_ext) (isb ")"%byte).
Proof.
  eapply complete_many0; [apply comp_namespace_ext | apply beg_namespace_ext | reflexivity | reflexivity |].
  intros c E. apply beq_eq in E as ->. rf.
Qed.
Hint Resolve comp_namespace_exts : compdb.
Lemma comp_namespace_descr : complete p_namespace_descr G_namespace_descr yes.
Proof.
  intros t x s [tp p td d te e G1 G2 G3] N; flat; unfold p_namespace_descr.
  assert (Y : nx yes (te ++ ")"%byte :: s) = true).
  { eapply nx_many; [apply beg_namespace_ext | exact G3 | reflexivity | reflexivity]. }
  ok.
Qed.
Lemma beg_namespace_descr : begins G_namespace_descr (isb "("%byte).
Proof. intros t x []. reflexivity. Qed.
Lemma comp_namespace : complete p_namespace G_namespace yes.
Proof.
  intros t x s G N. unfold p_namespace. destruct G as [t G | t l G]; [ok |].
  apply alt_skip; [inversion G; subst; flat; rej |]. apply alt_here.
  revert t l s G N. eapply complete_parens; [| | exact openc_go | exact closec_go].
  - eapply (complete_many1 p_namespace_descr G_namespace_descr yes (isb "("%byte) (isb ")"%byte));
      [apply comp_namespace_descr | apply beg_namespace_descr | reflexivity | reflexivity |].
    intros c E. apply beq_eq in E as ->. rf.
  - reflexivity.
Qed.
Lemma beg_namespace : begins G_namespace is_plist.
Proof. intros t x [u G | u l G]; [now apply beg_nil | now inversion G]. Qed.
Hint Resolve comp_namespace : compdb.
Hint Resolve beg_namespace : begdb.
Lemma quota_sp_go t s : G_quota_space t -> nx (no (isb " "%byte)) s = true -> p_quota_sp (t ++ s) = ROk s tt.
Proof.
  intros G N. unfold p_quota_sp. destruct s as [| c s]; [discriminate N |]. cbn in N.
  assert (C : c <> bSP) by (intros ->; discriminate N).
  assert (M : forall z, Forall (eq bSP) z -> exists l, many1 sp ((bSP :: z) ++ c :: s) = ROk (c :: s) l).
  { intros z Z. destruct (many0_sp z c s Z C) as [l E]. exists (bSP :: l). unfold many1. cbn [app].
    eapply bind_go; [apply sp_go |]. eapply bind_go; [exact E | reflexivity]. }
  destruct G as [-> | [Q [Z1 Z2]]].
  - destruct quirk_excessive_space_quota_resource.
    + destruct (M [] (Forall_nil _)) as [l E]. eapply value_go. exact E.
    + eapply value_go. apply sp_go.
  - rewrite Q. destruct Z2 as [| b z <- Z2]; [contradiction |].
    destruct (M z Z2) as [l E]. eapply value_go. exact E.
Qed.
Lemma quota_sp_nx t s : G_quota_space t -> nx natom (t ++ s) = true.
Proof. intros [-> | [Q [Z1 Z2]]]; [reflexivity |]. destruct Z2 as [| b z <- Z2]; [contradiction | reflexivity]. Qed.
Lemma quota_sp_nx' t s : G_quota_space t -> nx ndig (t ++ s) = true.
Proof. intros [-> | [Q [Z1 Z2]]]; [reflexivity |]. destruct Z2 as [| b z <- Z2]; [contradiction | reflexivity]. Qed.
Lemma comp_quota_get : complete p_quota_resource G_quota_get ndig.
Proof.
  intros t x s [tr r s1 tu u s2 tl l G S1 U S2 H] N. rewrite <- !app_assoc. unfold p_quota_resource, p_resource_name.
  eapply bind_go; [apply comp_resource; [exact G | now apply quota_sp_nx] |].
  eapply bind_go; [apply quota_sp_go; [exact S1 | nxg] |].
  eapply bind_go; [apply comp_number64; [exact U | now apply quota_sp_nx'] |].
  eapply bind_go; [apply quota_sp_go; [exact S2 | nxg] |].
  eapply bind_go; [apply comp_number64; [exact H | exact N] |]. reflexivity.
Qed.
Lemma beg_thread d : begins (G_thread d) (isb "("%byte).
Proof. intros t x []; reflexivity. Qed.
Lemma refuses_thread n : refuses (p_thread_list (S n)) ")"%byte.
Proof. intros s. reflexivity. Qed.
Lemma comp_thread d : complete (p_thread_list (S d)) (G_thread d) yes.
Proof.
  induction d as [| d IH]; intros t x s G N.
  - inversion G; subst. flat. cbn [p_thread_list]. unfold delimited.
    eapply bind_go; [apply open_go |].
    eapply bind_go; [| eapply bind_go; [apply close_go | reflexivity]].
    apply alt_here. eapply bind_go.
    + apply (complete_vecn 1 _ _ (isb ")"%byte) (comp_list1 _ _ _ (isb ")"%byte) comp_nz eq_refl eq_refl eq_refl));
      [intros; eapply sep_by_len; eassumption | eassumption | reflexivity].
    + eapply bind_go; [apply opt_no; reflexivity | reflexivity].
  - change (p_thread_list (S (S d))) with (delimited (tg "(") (alt [(p <- vec1 (sep_list1 sp p_nz_number) ;;
             a <- opt (vec2 (sp ;;; many_m 2 (p_thread_list (S d)))) ;; ret (TMembers p a));
            pmap TNested (vec2 (many_m 2 (p_thread_list (S d))))]) (tg ")")).
    pose proof (refuses_thread d) as R. revert IH R. generalize (p_thread_list (S d)) as p. intros p IH R.
    assert (M : forall u a r, at_least 2 (G_thread d) u a ->
      vec2 (many_m 2 p) (u ++ ")"%byte :: r) = ROk (")"%byte :: r) a).
    { intros u a r H. eapply (complete_vecn 2 _ _ (isb ")"%byte)).
      - eapply (complete_many_m p (G_thread d) yes (isb "("%byte) (isb ")"%byte));
          [exact IH | apply beg_thread | reflexivity | reflexivity |].
        intros c E. apply beq_eq in E as ->. exact R.
      - intros; eapply at_least_len; eassumption.
      - exact H.
      - reflexivity. }
    unfold delimited.
    inversion G as [d' u l H | d' u l v a H A | d' u a A]; subst; flat.
    + eapply bind_go; [apply open_go |].
      eapply bind_go; [| eapply bind_go; [apply close_go | reflexivity]].
      apply alt_here. eapply bind_go.
      * apply (complete_vecn 1 _ _ (isb ")"%byte) (comp_list1 _ _ _ (isb ")"%byte) comp_nz eq_refl eq_refl eq_refl));
        [intros; eapply sep_by_len; eassumption | eassumption | reflexivity].
      * eapply bind_go; [apply opt_no; reflexivity | reflexivity].
    + eapply bind_go; [apply open_go |].
      eapply bind_go; [| eapply bind_go; [apply close_go | reflexivity]].
      assert (V : exists v', v = "("%byte :: v').
      { pose proof (begins_many 1 _ _ (beg_thread d) _ _ A) as B. destruct v as [| c v]; [discriminate |].
        cbn in B. apply beq_eq in B as ->. eauto. }
      apply alt_here. eapply (bind_go _ _ _ (" "%byte :: v ++ ")"%byte :: s) l).
      * eapply vecn_go; [eapply sep_by_len; eassumption |].
        eapply (sep1_go _ _ ndig _ " "%byte bSP); [apply comp_nz | reflexivity | exact sp_go | exact H | | reflexivity].
        right. exists (v ++ ")"%byte :: s), bSP. destruct V as [v' ->]. repeat split; cbn; lia.
      * eapply bind_go; [eapply opt_go | reflexivity]. eapply vecn_go; [eapply at_least_len; exact A |].
        eapply bind_go; [apply sp_go |]. specialize (M v a s A). apply vecn_inv in M. exact M.
    + eapply bind_go; [apply open_go |].
      eapply bind_go; [| eapply bind_go; [apply close_go | reflexivity]].
      apply alt_skip.
      { assert (V : exists v', u = "("%byte :: v').
        { pose proof (begins_many 1 _ _ (beg_thread d) _ _ A) as B. destruct u as [| c v]; [discriminate |].
          cbn in B. apply beq_eq in B as ->. eauto. }
        destruct V as [v' ->]. cbn [app]. reflexivity. }
      apply alt_here. eapply pmap_go; [apply M; exact A | reflexivity].
Qed.
Lemma comp_threads : complete (many1 (p_thread_list 8)) (at_least 1 (G_thread 7)) is_eol.
Proof.
  eapply (complete_many1 (p_thread_list 8) (G_thread 7) yes (isb "("%byte) is_eol);
    [apply comp_thread | apply beg_thread | reflexivity | reflexivity |].
  intros c E. unfold is_eol in E. apply orb_prop in E as [E | E]; apply beq_eq in E as ->; intros s; reflexivity.
Qed.
Hint Resolve comp_threads : compdb.
Lemma comp_uid_element : complete (alt [p_uid_range; pmap UESingle p_nz_number]) G_uid_element
  (no (fun b => is_digit b || beq b ":"%byte)).
Proof.
  intros t a s G N. destruct G; flat; ok.
Qed.
Lemma comma_go s : tag (bs ",") (","%byte :: s) = ROk s tt.
Proof. reflexivity. Qed.
Lemma comp_uid_set : complete p_uid_set G_uid_set nseq.
Proof.
  apply complete_vecn; [| apply sep_by_len].
  eapply complete_sep1; [apply comp_uid_element | reflexivity | exact comma_go | vm_compute; reflexivity |].
  intros b E; rf.
Qed.
Lemma beg_uid_set : begins G_uid_set is_digit.
Proof.
  intros t l G. apply (begins_sep _ G_uid_element is_digit) in G; [exact G |].
  intros u x [v n H | v a w b H1 H2]; [now apply beg_nz in H | apply nx_app; now apply beg_nz in H1].
Qed.
Hint Resolve comp_uid_set : compdb.
Hint Resolve beg_uid_set : begdb.
Lemma comp_capability : complete p_capability G_capability natom.
Proof.
  intros t x s G N. apply capability_complete in G as [A <-]. unfold p_capability.
  eapply pmap_go; [apply comp_atom; [split; [exact A | reflexivity] | exact N] | reflexivity].
Qed.
Lemma beg_capability : begins G_capability is_atom_char.
Proof. intros t x G. apply capability_complete in G as [A _]. now apply atom_nx. Qed.
(** The end of a capability list: a line end or a bracket *)
Definition is_cend (b : byte) : bool := is_eol b || beq b "]"%byte.
Lemma opt_sp_go q z s : stray_space q z -> nx (no (isb " "%byte)) s = true -> p_opt_sp q (z ++ s) = ROk s tt.
Proof.
  intros [-> | [-> ->]] N; unfold p_opt_sp.
  - destruct q; [| reflexivity]. eapply value_go. apply opt_no. cbn [app]. destruct s as [| c s]; [discriminate N |].
    apply refuses_char. cbn in N. apply negb_true_iff in N. exact N.
  - eapply value_go. apply opt_go. apply sp_go.
Qed.
Lemma comp_capabilities : complete p_capability_data G_capabilities is_cend.
Proof.
  intros t x s [k u l z K G Z] N. rewrite <- !app_assoc. unfold p_capability_data.
  eapply vecn_go; [eapply sep_by_len; exact G |]. eapply bind_go; [kwok |]. unfold terminated.
  eapply (bind_go _ _ _ (z ++ s) l).
  - assert (A : p_capability s = RErr).
    { destruct s as [| c s]; [discriminate N |]. cbn in N. unfold is_cend, is_eol in N.
      apply orb_prop in N as [N | N]; [apply orb_prop in N as [N | N] |]; apply beq_eq in N as ->; reflexivity. }
    eapply (sep1_go _ _ natom _ " "%byte bSP); [apply comp_capability | reflexivity | exact sp_go | exact G | |].
    + destruct Z as [-> | [_ ->]].
      * left. cbn [app]. destruct s as [| c s]; [discriminate N |]. cbn in N. apply refuses_char.
        unfold is_cend, is_eol in N.
        apply orb_prop in N as [N | N]; [apply orb_prop in N as [N | N] |]; apply beq_eq in N as ->; reflexivity.
      * right. exists s, bSP. repeat split; [cbn; lia | exact A].
    + destruct Z as [-> | [_ ->]]; [| reflexivity]. cbn [app]. eapply nx_weak; [exact N | vm_compute; reflexivity].
  - eapply bind_go; [apply opt_sp_go; [exact Z |] | reflexivity]. eapply nx_weak; [exact N | vm_compute; reflexivity].
Qed.
Hint Resolve comp_capabilities : compdb.
Lemma mailbox_list_go (f : list flag_name_attribute -> option byte -> mailbox -> data) w t d s :
  G_mailbox_list w f t d -> nx is_eol s = true ->
  (tag_no_case w ;;; ' (fl, d, m) <- p_mailbox_list ;; ret (f fl d m)) (t ++ s) = ROk s d.
Proof.
  intros (k & tf & fl & td & de & tm & m & K & G1 & G2 & G3 & -> & ->) N. flat.
  eapply bind_go; [now apply kw_ok |]. unfold p_mailbox_list. inversion G1; subst. flat.
  destruct (opt_list_go _ _ _ t fl (" "%byte :: td ++ " "%byte :: tm ++ s) comp_flag_name eq_refl eq_refl ltac:(rf) H)
    as (o & E & <-).
  eapply (bind_go _ _ _ s (dflt o, de, m)); [| reflexivity].
  eapply (bind_go _ _ _ (" "%byte :: td ++ " "%byte :: tm ++ s) o); [| ok].
  unfold delimited. eapply bind_go; [ok |]. eapply bind_go; [exact E | ok].
Qed.
Lemma nums_go t l s : many (after (bs " ") G_nz_number) t l -> nx ndig s = true -> (sp ;;; p_nz_number) s = RErr ->
  p_nums (t ++ s) = ROk s l.
Proof.
  intros M N R. unfold p_nums. eapply (many_go _ _ ndig (isb " "%byte)); [| apply beg_after_sp | reflexivity | exact M | exact R | exact N].
  apply (complete_after sp bSP (bs " ")); [apply comp_nz | exact sp_go].
Qed.
Lemma astrings_go t l s : many (after (bs " ") G_astring) t l -> nx is_eol s = true ->
  many0 (sp ;;; p_astring) (t ++ s) = ROk s l.
Proof.
  intros M N. eapply (many_go _ _ nastr (isb " "%byte)); [| apply beg_after_sp | reflexivity | exact M | fb | nxg].
  apply (complete_after sp bSP (bs " ")); [apply comp_astring | exact sp_go].
Qed.
Lemma modseq_go t m s : G_modseq_result t m -> nx (fun b => is_eol b || beq b " "%byte) s = true ->
  (forall r, s = " "%byte :: r -> nx is_eol r = true) -> p_opt_modseq (t ++ s) = ROk s m.
Proof.
  intros G N H. unfold p_opt_modseq. destruct G as [| k t n E K G].
  - destruct ext_condstore_qresync; [| reflexivity]. apply opt_no. cbn [app].
    destruct s as [| c s]; [discriminate N |]. cbn in N. destruct (beq c " "%byte) eqn:B.
    + apply beq_eq in B as ->. specialize (H s eq_refl). eapply bind_go; [now apply char_go |]. unfold p_search_sort_mod_seq. fb.
    + rewrite orb_false_r in N. assert (N' : nx is_eol (c :: s) = true) by exact N. fb.
  - rewrite E. flat. unfold p_search_sort_mod_seq. ok.
Qed.
Lemma num_end u m z s q : G_modseq_result u m -> stray_space q z -> nx is_eol s = true ->
  nx ndig (u ++ z ++ s) = true /\ (sp ;;; p_nz_number) (u ++ z ++ s) = RErr.
Proof.
  intros G Z N.
  assert (E : nx ndig (z ++ s) = true /\ (sp ;;; p_nz_number) (z ++ s) = RErr).
  { destruct Z as [-> | [_ ->]]; cbn [app].
    - split; [nxg | fb].
    - split; [reflexivity |]. eapply bind_go; [apply sp_go |]. fb. }
  destruct G as [| k t n Q K G]; [exact E |]. split; [reflexivity |]. flat. eapply bind_go; [apply sp_go |]. fb.
Qed.
Definition p_resp_data : parser response :=
    alt [pmap (fun b => RStatus (StUntagged b)) p_resp_cond_state;
          pmap (fun ct => RStatus (StBye (fst ct) (snd ct))) p_resp_cond_bye;
          pmap RData p_mailbox_data;
          pmap RData p_message_data;
          pmap (fun l => RData (DCapability l)) p_capability_data;
          pmap RData p_enable_data;
          gate ext_id (pmap (fun p => RData (DId p)) p_id)].
Ltac skip := apply alt_skip; [rej |].
Lemma eol_ch s : nx is_eol s = true -> nx is_cend s = true.
Proof. intros N. nxg. Qed.
Lemma sp_letters k w : same_letters k (" "%byte :: w) -> exists k', k = bs " " ++ k' /\ same_letters k' w.
Proof.
  intros K. inversion K as [| b c k' w' E S]; subst. exists k'. split; [| exact S].
  apply same_letter_two in E as [-> | [-> | ->]]; reflexivity.
Qed.
Lemma data_go t d s : G_data t d -> nx is_eol s = true -> p_resp_data (t ++ s) = ROk s (RData d).
Proof.
  intros G N. unfold p_resp_data.
  destruct G as [t l G | k t l K G | t d G | t d G | k t l u m z K G M Z | k t l u m K G M | k K | k t l K G
    | k tm m t l z K G1 G2 Z | k tm m t l E K G1 G2 | k tm m t l E K G1 G2 | k ta a tb b tc c E K G1 G2 G3
    | t n k G K | t n k G K | t n k G K | t n k u l G K G2 | k t x E K G | k t x E K G | k tm m t l K G1 G2
    | k tr r t l K G1 G2 | k t l K G | k t p E K G].
  - pose proof G as G'. destruct G' as [k u l z K _ _]. rewrite <- !app_assoc. do 4 skip. rewrite !app_assoc, <- (app_assoc k).
    apply alt_here. eapply pmap_go; [| reflexivity]. apply comp_capabilities; [exact G | nxg].
  - flat. ok.
  - pose proof G as (k & tf & fl & td & de & tm & m & K & _ & _ & _ & E & _). 
    do 2 (apply alt_skip; [rewrite E; flat; rej |]). apply alt_here. eapply pmap_go; [| reflexivity].
    unfold p_mailbox_data. apply alt_skip; [rewrite E; flat; rej |]. apply alt_here. now apply mailbox_list_go.
  - pose proof G as (k & tf & fl & td & de & tm & m & K & _ & _ & _ & E & _). 
    do 2 (apply alt_skip; [rewrite E; flat; rej |]). apply alt_here. eapply pmap_go; [| reflexivity].
    unfold p_mailbox_data. do 2 (apply alt_skip; [rewrite E; flat; rej |]). apply alt_here. now apply mailbox_list_go.
  - rewrite <- !app_assoc. do 2 skip. apply alt_here. eapply pmap_go; [| reflexivity]. unfold p_mailbox_data.
    do 3 skip. apply alt_here. destruct (num_end u m z s _ M Z N) as [N1 N2].
    eapply bind_go; [kwok |]. eapply bind_go; [apply nums_go; [exact G | exact N1 | exact N2] |].
    eapply (bind_go _ _ _ (z ++ s) m).
    + apply modseq_go; [exact M | |].
      * destruct Z as [-> | [_ ->]]; [nxg | reflexivity].
      * intros r. destruct Z as [-> | [_ ->]]; cbn [app]; [intros ->; discriminate N | intros [= <-]; exact N].
    + eapply bind_go; [apply opt_sp_go; [exact Z | nxg] | reflexivity].
  - rewrite <- !app_assoc. do 2 skip. apply alt_here. eapply pmap_go; [| reflexivity]. unfold p_mailbox_data.
    do 4 skip. apply alt_here. destruct (num_end u m [] s false M (or_introl eq_refl) N) as [N1 N2].
    eapply bind_go; [kwok |]. eapply bind_go; [apply nums_go; [exact G | exact N1 | exact N2] |].
    eapply (bind_go _ _ _ s m); [| reflexivity].
    apply modseq_go; [exact M | nxg |]. intros r ->. discriminate N.
  - do 2 skip. apply alt_here. eapply pmap_go; [| reflexivity]. unfold p_mailbox_data.
    do 5 skip. apply alt_here. unfold p_thread_data. eapply bind_go; [kwok |].
    eapply bind_go; [apply opt_no; fb | reflexivity].
  - flat. do 2 skip. apply alt_here. eapply pmap_go; [| reflexivity]. unfold p_mailbox_data.
    do 5 skip. apply alt_here. unfold p_thread_data. destruct (letters_sp k (bs "THREAD") K) as (k' & -> & K'). clear K. flat.
    eapply bind_go; [kwok |]. eapply (bind_go _ _ _ s (Some l)); [| reflexivity].
    apply opt_go. eapply bind_go; [ok |]. now apply comp_threads.
  - flat. do 2 skip. apply alt_here. eapply pmap_go; [| reflexivity]. unfold p_mailbox_data.
    do 6 skip. apply alt_here. inversion G2; subst. flat.
    destruct (opt_list_go _ _ _ t0 l (z ++ s) comp_status_val eq_refl eq_refl ltac:(rf) H)
      as (o & E & <-).
    eapply bind_go; [kwok |]. eapply bind_go; [ok |].
    eapply (bind_go _ _ _ (z ++ s) o).
    + unfold delimited. eapply bind_go; [ok |]. eapply bind_go; [exact E | ok].
    + eapply bind_go; [apply opt_sp_go; [exact Z | nxg] | reflexivity].
  - flat. ok.
  - flat. do 2 skip. apply alt_here. eapply pmap_go; [| reflexivity]. unfold p_mailbox_data.
    do 7 skip. apply alt_here. apply gate_go; [exact E |]. unfold p_metadata_resp.
    destruct (letters_sp k (bs "METADATA") K) as (k' & -> & K'). clear K. flat.
    eapply bind_go; [kwok |]. eapply bind_go; [ok |]. eapply bind_go; [ok |]. eapply bind_go; [ok |].
    eapply (bind_go _ _ _ s (MRWithoutValues l)); [| reflexivity].
    assert (B : nx is_astr (t ++ s) = true).
    { apply nx_app. exact (begins_sep _ _ _ beg_astring _ _ G2). }
    apply alt_skip.
    { eapply rej_nx; [exact B |]. intros b Hb. unfold p_entry_values. rf. }
    apply alt_here. eapply pmap_go; [| reflexivity].
    apply vecn_go; [eapply sep_by_len; exact G2 |].
    eapply (comp_list1 _ _ _ is_eol comp_astring); [reflexivity .. | exact G2 | exact N].
  - flat. ok.
  - flat. ok.
  - flat. ok.
  - flat. assert (GN : G_number t n) by apply G. do 2 skip.
    apply alt_skip.
    { apply bind_err. unfold p_mailbox_data. rej. }
    apply alt_here. eapply pmap_go; [| reflexivity]. unfold p_message_data. apply alt_here.
    apply sp_letters in K as (k' & -> & K). flat. unfold terminated.
    eapply bind_go; [ok |]. ok.
  - flat. assert (GN : G_number t n) by apply G. do 2 skip.
    apply alt_skip.
    { apply bind_err. unfold p_mailbox_data. rej. }
    apply alt_here. eapply pmap_go; [| reflexivity]. unfold p_message_data. apply alt_here.
    apply sp_letters in K as (k' & -> & K). flat. unfold terminated.
    eapply bind_go; [ok |]. ok.
  - flat. do 3 skip. apply alt_here. eapply pmap_go; [| reflexivity]. unfold p_message_data.
    skip. apply alt_here. apply gate_go; [exact E |]. eapply bind_go; [kwok |].
    eapply (bind_go _ _ _ _ None); [apply opt_no | ok].
    assert (B : nx is_seq (t ++ s) = true) by nxg. destruct (t ++ s) as [| c r]; [discriminate B |].
    cbn. cbn in B. destruct (beq_spec (lower c) "("%byte) as [Q | Q]; [| reflexivity].
    exfalso. revert B Q. clear. destruct c; discriminate.
  - flat. ok.
  - flat. do 2 skip. apply alt_here. eapply pmap_go; [| reflexivity]. unfold p_mailbox_data.
    do 11 skip. apply alt_here. unfold p_quotaroot_response.
    assert (Y : nx nastr (t ++ s) = true).
    { eapply nx_many; [apply (beg_after_sp G_astring) | exact G2 | vm_compute; reflexivity | nxg]. }
    eapply bind_go; [kwok |]. eapply bind_go; [ok |].
    eapply bind_go; [apply astrings_go; [eassumption | exact N] | reflexivity].
  - flat. do 2 skip. apply alt_here. eapply pmap_go; [| reflexivity]. unfold p_mailbox_data.
    do 12 skip. apply alt_here. unfold p_quota_response. inversion G2; subst. flat.
    eapply bind_go; [kwok |]. eapply bind_go; [ok |].
    eapply (bind_go _ _ _ s l); [| reflexivity]. apply vecn_go; [eapply sep_by_len; exact H |].
    unfold delimited. eapply bind_go; [ok |]. eapply bind_go; [| ok].
    eapply (comp_list1 _ _ _ (isb ")"%byte) comp_quota_get); [reflexivity .. | exact H | reflexivity].
  - flat. do 5 skip. apply alt_here. eapply pmap_go; [| reflexivity]. unfold p_enable_data.
    eapply bind_go; [kwok |]. eapply pmap_go; [| reflexivity].
    eapply (many_go _ _ natom (isb " "%byte)); [| apply beg_after_sp | reflexivity | exact G | fb | nxg].
    apply (complete_after sp bSP (bs " ")); [apply comp_enable | exact sp_go].
  - flat. ok.
Qed.
(** Response codes *)
Lemma comp_known_code : complete p_resp_text_code G_known_code (isb "]"%byte).
Proof.
  intros t x s G N. unfold p_resp_text_code.
  destruct G as [t c G | k L f t n W G | k t l K G | t l G | k t l K G | k tv v tu u K G1 G2
    | k tv v ts x td d K G1 G2 G3 | k t x E K G]; flat.
  - words G; ok.
  - words W; ok.
  - skip. apply alt_here. destruct (letters_sp k (bs "BADCHARSET") K) as (k' & -> & K'). clear K. inversion G; subst. flat.
    eapply bind_go; [kwok |]. eapply (bind_go _ _ _ s (Some l)); [| reflexivity]. apply opt_go.
    unfold delimited. eapply bind_go; [ok |]. eapply bind_go; [| ok].
    eapply (comp_list1 _ _ _ (isb ")"%byte) comp_charset); [reflexivity .. | exact H | reflexivity].
  - pose proof G as G'. destruct G' as [k u l z K _ _]. do 2 (apply alt_skip; [rewrite <- !app_assoc; rej |]).
    apply alt_here. eapply pmap_go; [| reflexivity]. apply comp_capabilities; [exact G | nxg].
  - do 4 skip. apply alt_here. inversion G; subst. flat.
    destruct (opt_list_go _ _ _ t0 l s comp_flag_perm eq_refl eq_refl ltac:(rf) H) as (o & E & <-).
    eapply bind_go; [kwok |]. eapply (bind_go _ _ _ s o); [| reflexivity].
    unfold delimited. eapply bind_go; [ok |]. eapply bind_go; [exact E | ok].
  - ok.
  - ok.
  - ok.
Qed.
End CompResp.
