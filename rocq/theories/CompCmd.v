(** Completeness of the parsers of ParseCmd.v. *)

From Verif Require Import Bytes BytesFacts Dec Features Nom Types Utf8 Conv Base64 Date Valid FragSpec FragFacts
  EncodeCtx Encode EncodeFacts ParseCore ParseBody ParseCmd ParserFacts QuotedFacts OkCore OkResp RtFacts RtTac RtCore RtBody
  ValueSpec ValueFacts Grammar SoundTac SoundCore SoundCap CompTac CompCore CompBody.
Open Scope nat_scope.

Section CompCmd.
Context {F : features}.

Lemma comp_id_param : complete p_id_param G_id_param yes.
Proof. intros t x s [] N; unfold p_id_param; flat; ok. Qed.
Lemma beg_id_param : begins G_id_param is_str.
Proof. intros t x [u k v w G1 G2]. apply nx_app. now apply beg_string in G1. Qed.
Lemma comp_id_params : complete p_id_params_list G_id_params yes.
Proof.
  intros t x s G N; unfold p_id_params_list. destruct G as [t G | t l e G E]; [ok |]. flat.
  apply alt_here. eapply pmap_go; [| reflexivity]. unfold delimited.
  eapply bind_go; [ok |]. eapply (bind_go _ _ _ (")"%byte :: s) l); [| ok].
  destruct E as [-> | [-> ->]].
  - cbn [app]. assert (E : sep_list0 sp p_id_param (t ++ ")"%byte :: s) = ROk (")"%byte :: s) l).
    { eapply comp_list0; [apply comp_id_param | reflexivity | reflexivity | rf | exact G | reflexivity]. }
    destruct quirk_trailing_space_id; [| exact E]. unfold terminated. eapply bind_go; [exact E |]. ok.
  - flat. unfold terminated. eapply (bind_go _ _ _ (" "%byte :: ")"%byte :: s) l); [| ok].
    destruct G as [| t l G].
    + unfold sep_list0. cbn [app].
      assert (E : p_id_param (" "%byte :: ")"%byte :: s) = RErr) by fb. now rewrite E.
    + replace (t ++ " "%byte :: ")"%byte :: s) with (t ++ (" "%byte :: ")"%byte :: s)) by reflexivity.
      pose proof (sep1_go p_id_param G_id_param yes sp " "%byte bSP comp_id_param eq_refl sp_go t l (" "%byte :: ")"%byte :: s) G) as H.
      rewrite <- H; [| | reflexivity].
      * apply sep_by_split in G as (u & v & a & k & -> & -> & G & M). rewrite <- !app_assoc.
        eapply sep0_sep1. apply comp_id_param; [exact G |].
        destruct M as [| ? ? ? ? [? ? ?] ?]; reflexivity.
      * right. exists (")"%byte :: s), bSP. repeat split; [cbn; lia |]. fb.
Qed.
Definition is_idp (b : byte) : bool := beq b "("%byte || beq b "N"%byte || beq b "n"%byte.
Lemma beg_id_params : begins G_id_params is_idp.
Proof. intros t x [u G | u l e G E]; [now apply beg_nil | reflexivity]. Qed.
Lemma comp_quota_set : complete p_setquota_resource G_quota_set ndig.
Proof. intros t x s [] N; unfold p_setquota_resource, p_resource_name; flat; ok. Qed.
Lemma comp_entry_value : complete p_entry_value G_entry_value yes.
Proof. intros t x s [] N; unfold p_entry_value; flat; ok. Qed.
Lemma comp_entry_values : complete p_entry_values G_entry_values yes.
Proof.
  apply complete_vecn; [| apply parens_len, sep_by_len].
  eapply comp_plist1; [apply comp_entry_value | reflexivity | reflexivity].
Qed.
Lemma beg_entry_values : begins G_entry_values (isb "("%byte).
Proof. now apply begins_parens. Qed.
Hint Resolve comp_id_params comp_entry_values : compdb.
Hint Resolve beg_id_params beg_entry_values : begdb.
Lemma comp_depth : complete (alt [value DepthNull (tg "0"); value DepthOne (tg "1");
  value DepthInfinity (kw "infinity")]) (word depth_table) yes.
Proof.
  assert (D : forall k c, In c ["0"; "1"]%byte -> same_letters k [c] -> k = [c]).
  { intros k c I S. inversion S as [| b c' k' w' E S']; subst. inversion S'; subst. f_equal.
    destruct I as [<- | [<- | []]]; apply same_letter_two in E as [-> | [-> | ->]]; reflexivity. }
  intros t x s G N. words G.
  - apply D in K as ->; [flat; ok | cbn; auto].
  - apply D in K as ->; [flat; ok | cbn; auto].
  - ok.
Qed.
Lemma beg_depth : begins (word depth_table) (fun b => is_alpha b || is_digit b).
Proof. intros t x G. rewrite <- (app_nil_r t). words G; nxg. Qed.
Hint Resolve comp_depth : compdb.
Hint Resolve beg_depth : begdb.
Lemma comp_getmetadata_option : complete p_getmetadata_option G_getmetadata_option ndig.
Proof. intros t x s [] N; flat; unfold p_getmetadata_option; ok. Qed.
Lemma comp_getmetadata_options : complete p_getmetadata_options (in_parens (sep_by (bs " ") G_getmetadata_option)) yes.
Proof.
  apply complete_vecn; [| apply parens_len, sep_by_len].
  eapply comp_plist1; [apply comp_getmetadata_option | reflexivity | reflexivity].
Qed.
Lemma beg_parens {A} (L : lang A) : begins (in_parens L) (isb "("%byte).
Proof. now apply begins_parens. Qed.
Lemma comp_entries : complete p_entries G_entries nastr.
Proof.
  intros t x s [u e G | u l G] N; unfold p_entries; [ok |].
  apply alt_skip; [destruct G; flat; rej |]. apply alt_here.
  apply vecn_go; [eapply parens_len; [apply sep_by_len | exact G] |].
  eapply comp_plist1; [apply comp_astring | reflexivity | reflexivity | exact G |]. now apply nx_yes in N.
Qed.
Definition is_entries (b : byte) : bool := is_astr b || beq b "("%byte.
Lemma beg_entries : begins G_entries is_entries.
Proof.
  intros t x [u e G | u l []]; [| reflexivity].
  eapply (begins_weak _ _ _ beg_astring); [vm_compute; reflexivity | exact G].
Qed.
Hint Resolve comp_getmetadata_options comp_entries : compdb.
Hint Resolve beg_parens beg_entries : begdb.
Lemma comp_sort_key : complete p_sort_key (word sort_key_table) yes.
Proof. intros t x s G N; unfold p_sort_key; words G; ok. Qed.
Lemma comp_sort_criterion : complete p_sort_criterion G_sort_criterion yes.
Proof.
  intros t x s [u k G | r u k K G] N; unfold p_sort_criterion; flat.
  - eapply (bind_go _ _ _ _ None); [words G; ok |]. eapply bind_go; [apply comp_sort_key; [exact G | exact N] | reflexivity].
  - eapply bind_go; [ok |]. eapply bind_go; [apply comp_sort_key; [exact G | exact N] | reflexivity].
Qed.
Lemma comp_sort_criteria : complete p_sort_criteria (in_parens (sep_by (bs " ") G_sort_criterion)) yes.
Proof.
  intros t l s G N. unfold p_sort_criteria. destruct G as [t l G]. flat. unfold delimited.
  eapply bind_go; [ok |]. eapply bind_go; [| ok]. apply vecn_go; [eapply sep_by_len; exact G |].
  eapply (sep1_go _ _ yes _ " "%byte bSP); [exact comp_sort_criterion | reflexivity | exact sp_go | exact G | left; reflexivity | reflexivity].
Qed.
Hint Resolve comp_sort_criteria : compdb.
(** Lists that are optional *)
Lemma opt_sp_no {A} (p : parser A) s : nx is_eol s = true -> opt (delimited (tg " (") (sep_list1 sp p) (tg ")")) s = ROk s None.
Proof. intros N. apply opt_no. unfold delimited. apply bind_err. fb. Qed.
Lemma comp_select_param : complete p_select_param G_select_param yes.
Proof.
  intros t x s [u K | k tv v tm m ts x' td d K G1 G2 G3 G4] N; unfold p_select_param; flat; [ok |].
  destruct G3 as [| ts x' [ts' x'' G3]], G4 as [| td d [td' d' [t1 a u1 b G4 G5]]]; flat; ok.
Qed.
Lemma condstore_go {A} (p : parser A) q L f t l s : complete p L f -> f " "%byte = true -> f ")"%byte = true ->
  q = (if ext_condstore_qresync then pmap dflt (opt (delimited (tg " (") (sep_list1 sp p) (tg ")"))) else ret []) ->
  condstore_list L t l -> tag (bs " (") s = RErr -> q (t ++ s) = ROk s l.
Proof.
  intros C Fs Fc -> [[-> ->] | [-> [| u k G]]] R.
  - destruct ext_condstore_qresync; [| reflexivity]. eapply (pmap_go _ _ _ _ None); [| reflexivity].
    apply opt_no. unfold delimited. now apply bind_err.
  - eapply (pmap_go _ _ _ _ None); [| reflexivity]. apply opt_no. unfold delimited. now apply bind_err.
  - destruct G as [u k G]. flat. eapply (pmap_go _ _ _ _ (Some k)); [| reflexivity]. apply opt_go. unfold delimited.
    eapply bind_go; [ok |]. eapply (bind_go _ _ _ (")"%byte :: s) k); [| ok].
    eapply (sep1_go _ _ f _ " "%byte bSP); [exact C | exact Fs | exact sp_go | exact G | left; reflexivity | exact Fc].
Qed.
Lemma condstore_go' {A} (p : parser A) q L f t l s : complete p L f -> f " "%byte = true -> f ")"%byte = true ->
  q = (if ext_condstore_qresync then pmap dflt (opt (delimited (tg " (") (sep_list1 sp p) (char ")"%byte))) else ret []) ->
  condstore_list L t l -> tag (bs " (") s = RErr -> q (t ++ s) = ROk s l.
Proof.
  intros C Fs Fc -> [[-> ->] | [-> [| u k G]]] R.
  - destruct ext_condstore_qresync; [| reflexivity]. eapply (pmap_go _ _ _ _ None); [| reflexivity].
    apply opt_no. unfold delimited. now apply bind_err.
  - eapply (pmap_go _ _ _ _ None); [| reflexivity]. apply opt_no. unfold delimited. now apply bind_err.
  - destruct G as [u k G]. flat. eapply (pmap_go _ _ _ _ (Some k)); [| reflexivity]. apply opt_go. unfold delimited.
    eapply bind_go; [ok |]. eapply (bind_go _ _ _ (")"%byte :: s) k); [| ok].
    eapply (sep1_go _ _ f _ " "%byte bSP); [exact C | exact Fs | exact sp_go | exact G | left; reflexivity | exact Fc].
Qed.
Lemma comp_select_params : complete p_select_params (condstore_list G_select_param) is_eol.
Proof.
  intros t x s G N. eapply condstore_go; [apply comp_select_param | reflexivity | reflexivity | reflexivity | exact G |]. fb.
Qed.
Lemma nx_condstore {A} (L : lang A) t l s f : condstore_list L t l -> f " "%byte = true -> nx f s = true ->
  nx f (t ++ s) = true.
Proof. intros [[-> ->] | [_ [| u k []]]] Hf N; trivial. Qed.
Lemma comp_fetch_modifier : complete p_fetch_modifier G_fetch_modifier ndig.
Proof. intros t x s [] N; unfold p_fetch_modifier; flat; ok. Qed.
Lemma comp_fetch_modifiers : complete p_fetch_modifiers (condstore_list G_fetch_modifier) is_eol.
Proof.
  intros t x s G N. eapply condstore_go'; [apply comp_fetch_modifier | reflexivity | reflexivity | reflexivity | exact G |]. fb.
Qed.
Lemma comp_store_modifier : complete (pmap SMUnchangedSince (kw "UNCHANGEDSINCE " ;;; p_mod_sequence_valzer)) G_store_modifier ndig.
Proof. intros t x s [] N; flat; ok. Qed.
Hint Resolve comp_select_params comp_fetch_modifiers : compdb.
Lemma comp_status_atts : complete (delimited (tg "(") (sep_list0 sp p_status_att) (tg ")"))
  (in_parens (list_of (bs " ") (word status_att_table))) yes.
Proof. eapply comp_plist0; [apply comp_status_att | reflexivity | reflexivity | rf]. Qed.
(** The same, with the space in front *)
Lemma plist0_go {A} (p : parser A) L f t l s : complete p L f -> f " "%byte = true -> f ")"%byte = true ->
  refuses p ")"%byte -> in_parens (list_of (bs " ") L) t l ->
  delimited (tg " (") (sep_list0 sp p) (tg ")") (" "%byte :: t ++ s) = ROk s l.
Proof.
  intros C Fs Fc R [u k G]. flat. unfold delimited. eapply bind_go; [ok |].
  eapply bind_go; [eapply (comp_list0 _ _ f); [exact C | exact Fs | exact Fc | exact R | exact G | reflexivity] |]. ok.
Qed.
Lemma macro_no t i s : G_fetch_att t i -> nx ends s = true ->
  kw "ALL" (t ++ s) = RErr /\ kw "FAST" (t ++ s) = RErr /\ kw "FULL" (t ++ s) = RErr.
Proof.
  intros G N. destruct G as [t i G | | | | |]; [words G |..]; flat; repeat split; rej.
Qed.
Lemma comp_macro_items : complete p_macro_or_items G_macro_or_items ends.
Proof.
  intros t x s G N. unfold p_macro_or_items. destruct G as [t m G | t i G | t l G].
  - words G; ok.
  - destruct (macro_no _ _ _ G N) as (E1 & E2 & E3).
    do 3 (apply alt_skip; [now apply bind_err |]). apply alt_here.
    eapply pmap_go; [apply comp_fetch_att; [exact G | exact N] | reflexivity].
  - do 4 (apply alt_skip; [destruct G; flat; rej |]). apply alt_here.
    eapply pmap_go; [| reflexivity].
    eapply comp_plist0; [apply comp_fetch_att | reflexivity | reflexivity | rf | exact G |]. now apply nx_yes in N.
Qed.
Definition is_items (b : byte) : bool := is_alpha b || beq b "("%byte.
Lemma beg_macro_items : begins G_macro_or_items is_items.
Proof.
  intros t x [u m G | u i G | u l []]; [| | reflexivity].
  - rewrite <- (app_nil_r u). words G; nxg.
  - eapply (begins_weak _ _ _ beg_fetch_att); [vm_compute; reflexivity | exact G].
Qed.
Lemma comp_store_flags : complete (alt [p_flag_list; sep_list1 sp p_flag]) G_store_flags is_eol.
Proof.
  intros t x s [u l G | u l G] N; [ok |]. apply alt_skip.
  - apply (begins_sep _ _ _ beg_flag) in G. fb.
  - apply alt_here. eapply comp_list1; [apply comp_flag | reflexivity | | | exact G | exact N]; vm_compute; reflexivity.
Qed.
Definition is_sflg (b : byte) : bool := is_flg b || beq b "("%byte.
Lemma beg_store_flags : begins G_store_flags is_sflg.
Proof.
  intros t x [u l [] | u l G]; [reflexivity |].
  eapply nx_weak; [exact (begins_sep _ _ _ beg_flag _ _ G) | vm_compute; reflexivity].
Qed.
Hint Resolve comp_macro_items comp_store_flags : compdb.
Hint Resolve beg_macro_items beg_store_flags : begdb.
Lemma comp_message : complete (alt [pmap LLiteral p_literal; pmap LLiteral8 p_literal8]) G_message yes.
Proof. intros t x s [] N; ok. Qed.
Hint Resolve comp_message : compdb.
Lemma beg_message : begins G_message (fun b => beq b "{"%byte || beq b "~"%byte).
Proof. intros t x [u l [] | u l []]; reflexivity. Qed.
Hint Resolve beg_message : begdb.

(** ** The commands *)
Lemma comp_append k tm m tf fl td d t l s : k ~ "APPEND " -> G_mailbox tm m -> G_opt_flags tf fl ->
    optional (after (bs " ") G_date_time) td d -> G_message t l -> nx is_eol s = true ->
    p_append (k ++ tm ++ tf ++ td ++ " "%byte :: t ++ s) = ROk s (CAppend m fl d l).
Proof.
  intros K G1 G2 G3 G4 N. unfold p_append.
  assert (N1 : nx (isb " "%byte) (td ++ " "%byte :: t ++ s) = true) by (destruct G3 as [| ? ? []]; reflexivity).
  assert (N2 : nx (isb " "%byte) (tf ++ td ++ " "%byte :: t ++ s) = true)
    by (destruct G2 as [[-> ->] | [? ? ?]]; [exact N1 | reflexivity]).
  eapply bind_go; [ok |]. eapply bind_go; [ok |].
  destruct G2 as [[-> ->] | [tf1 fl1 G2]]; destruct G3 as [| td0 d0 [td1 d1 G3]]; flat; ok.
Qed.
Lemma base64_ir u p s : G_base64 u p \/ (u = bs "=" /\ p = []) -> nx is_eol s = true ->
  alt [p_base64; value [] (tg "=")] (u ++ s) = ROk s p.
Proof.
  intros [G | [-> ->]] N; [ok |]. flat. apply alt_skip; [| ok].
  eapply map_res_err with (r := s) (a := bs "="); [| reflexivity].
  destruct s as [| b s]; [discriminate |]. cbn in N.
  assert (E : b = bCR \/ b = bLF).
  { unfold is_eol in N. apply orb_true_iff in N as [N | N]; apply beq_eq in N; auto. }
  destruct E as [-> | ->]; [exact (recognize_read _ (bs "=") (bCR :: s) _ eq_refl) | exact (recognize_read _ (bs "=") (bLF :: s) _ eq_refl)].
Qed.
Lemma eol_follow e s : eol e -> nx is_eol (e ++ s) = true.
Proof. intros [-> | [_ ->]]; reflexivity. Qed.
Lemma letters_sp k w : same_letters k (w ++ bs " ") -> exists k', k = k' ++ bs " " /\ same_letters k' w.
Proof.
  intros S. apply Forall2_app_inv_r in S as (u & v & H1 & H2 & ->). exists u. split; [| exact H1]. f_equal.
  inversion H2 as [| b c v' w' E S']; subst. inversion S'; subst. f_equal.
  apply same_letter_two in E as [-> | [-> | ->]]; reflexivity.
Qed.
Lemma sep_by_after {A} (L : lang A) t l : sep_by (bs " ") L t l -> at_least 1 (after (bs " ") L) (bs " " ++ t) l.
Proof.
  intros G. split; [| eapply sep_by_len; exact G].
  induction G as [t a G | t a u l G S IH].
  - rewrite <- (app_nil_r (bs " " ++ t)). repeat constructor. exact G.
  - rewrite !app_assoc. rewrite <- app_assoc. constructor; [constructor; exact G | exact IH].
Qed.
Lemma comp_enables n : complete (many_m n (sp ;;; p_capability_enable)) (at_least n (after (bs " ") G_enable_name)) is_eol.
Proof.
  eapply (complete_many_m _ _ natom (isb " "%byte)).
  - apply (complete_after sp bSP (bs " ")); [apply comp_enable | exact sp_go].
  - now apply begins_after.
  - vm_compute; reflexivity.
  - vm_compute; reflexivity.
  - intros c E. rf.
Qed.
Lemma comp_enables1 : complete (many1 (sp ;;; p_capability_enable)) (at_least 1 (after (bs " ") G_enable_name)) is_eol.
Proof.
  eapply (complete_many1 _ _ natom (isb " "%byte)).
  - apply (complete_after sp bSP (bs " ")); [apply comp_enable | exact sp_go].
  - now apply begins_after.
  - vm_compute; reflexivity.
  - vm_compute; reflexivity.
  - intros c E. rf.
Qed.
Ltac goto h :=
  lazymatch goal with
  | |- alt (h :: _) _ = _ => apply alt_here
  | |- alt (gate _ h :: _) _ = _ => apply alt_here
  | |- alt (_ :: _) _ = _ => apply alt_skip; [rej |]; goto h
  | |- _ => unfold h; goto h
  end.
Lemma store_go ts x tm ms tk kind kf tr r t fl s k : k ~ "STORE " -> G_sequence_set ts x ->
  condstore_list G_store_modifier tm ms -> G_store_type tk kind -> kf ~ "FLAGS" -> G_silent tr r -> G_store_flags t fl ->
  nx is_eol s = true ->
  p_store (k ++ ts ++ tm ++ " "%byte :: tk ++ kf ++ tr ++ " "%byte :: t ++ s) = ROk s (CStore x kind r fl false ms).
Proof.
  intros K G1 G2 G3 Kf G4 G5 N. unfold p_store.
  assert (N1 : nx (isb " "%byte) (tm ++ " "%byte :: tk ++ kf ++ tr ++ " "%byte :: t ++ s) = true)
    by (now apply (nx_condstore _ _ _ _ _ G2)).
  eapply bind_go; [ok |]. eapply bind_go; [ok |]. eapply bind_go; [ok |].
  eapply bind_go.
  { eapply condstore_go'; [apply comp_store_modifier | reflexivity | reflexivity | reflexivity | exact G2 |].
    destruct G3; flat; try reflexivity. inversion Kf as [| b c k' w' E S']; subst. flat. cbn [tag].
    apply same_letter_two in E as [-> | [-> | ->]]; reflexivity. }
  eapply bind_go; [ok |]. unfold p_store_att_flags.
  destruct G3; destruct G4 as [| tr Ks]; flat; ok.
Qed.
Lemma key_no_charset t k s : G_search_key t k -> nx ends s = true -> tag_no_case (bs "CHARSET") (t ++ s) = RErr.
Proof.
  intros G N. destruct G as [t k G | k f t x W G | k f t d W G | | | | | | | | | | t x G | t l [u m G]]; flat;
    try (words G; rej); try (words W; rej); rej.
Qed.
Lemma keys_no_charset t l s : G_search_keys t l -> nx is_eol s = true -> tag_no_case (bs "CHARSET") (t ++ s) = RErr.
Proof.
  intros [u k G H] N. apply sep_by_split in G as (v & w & a & m & -> & -> & G & M). rewrite <- app_assoc.
  eapply key_no_charset; [exact G |]. destruct M as [| ? ? ? ? [? ? ?] ?]; [nxg | reflexivity].
Qed.
Lemma comp_command_body : complete (alt [p_command_any; p_command_auth; p_command_nonauth; p_command_select]) G_command_body is_eol.
Proof.
  intros t x s G N.
  destruct G as [t c G | k f t m W G | k t p E K G | k tm m tf fl td d t l K G1 G2 G3 G4 | k tm m t ps K G1 G2
    | k tm m t ps K G1 G2 | k tm m t l K G1 G2 | k tm m t l K G1 G2 | k ta a tb b K G1 G2 | k tm m t l K G1 G2
    | k t l K G | k t K G | k t a K G | k tr r t l K G1 G2 | k tm m t l E K G1 G2 | k to o tm m t l E K G1 G2 G3
    | k tu u tp p K G1 G2 | k t m K G | k t m u p K G1 G2 | k t x K G | u uid k ts x tm m U K G1 G2
    | u uid k ts x tm m U K G1 G2 | u uid k ts x ti i t ms U K G1 G2 G3
    | u uid k ts x tm ms tk kind kf tr r t fl U K G1 G2 G3 Kf G4 G5 | u uid k t l U K G
    | u uid k tc c t l U K G1 G2 | u uid k ts so tc c t l U K G1 G2 G3 | u uid k ta a tc c t l U K G1 G2 G3]; flat.
  - words G; ok.
  - words W; ok.
  - ok.
  - goto p_command_auth. apply alt_here. now apply comp_append.
  - pose proof (nx_condstore _ _ _ s (fun b => is_eol b || beq b " "%byte) G2 eq_refl) as N'.
    assert (nx (fun b => is_eol b || beq b " "%byte) s = true) as N'' by nxg. specialize (N' N''). ok.
  - pose proof (nx_condstore _ _ _ s (fun b => is_eol b || beq b " "%byte) G2 eq_refl) as N'.
    assert (nx (fun b => is_eol b || beq b " "%byte) s = true) as N'' by nxg. specialize (N' N''). ok.
  - ok.
  - ok.
  - ok.
  - goto p_command_auth. unfold p_command_auth. goto p_status. unfold p_status.
    eapply bind_go; [ok |]. eapply bind_go; [ok |].
    eapply bind_go; [eapply plist0_go; [apply comp_status_att | reflexivity | reflexivity | rf | exact G2] | ok].
  - destruct (letters_sp k (bs "ENABLE") K) as (k' & -> & K'). clear K. flat.
    goto p_command_auth. unfold p_command_auth. goto p_enable. unfold p_enable.
    eapply bind_go; [ok |]. eapply pmap_go; [| reflexivity]. apply vecn_go; [eapply sep_by_len; exact G |].
    apply sep_by_after in G. change (" "%byte :: t ++ s) with ((bs " " ++ t) ++ s).
    now apply comp_enables1.
  - ok.
  - ok.
  - goto p_command_auth. unfold p_command_auth. goto p_setquota. unfold p_setquota.
    eapply bind_go; [ok |]. eapply bind_go; [ok |].
    eapply bind_go; [eapply plist0_go; [apply comp_quota_set | reflexivity | reflexivity | rf | exact G2] | ok].
  - ok.
  - destruct G1 as [| to o G1]; flat; [| ok]. ok.
  - ok.
  - ok.
  - goto p_command_nonauth. unfold p_command_nonauth. goto p_authenticate. unfold p_authenticate, p_auth_type.
    eapply bind_go; [ok |]. eapply bind_go; [ok |].
    eapply bind_go; [eapply opt_go; eapply bind_go; [ok |]; eapply base64_ir; [exact G2 | exact N] | ok].
  - ok.
  - destruct U as [| u U]; flat; ok.
  - destruct U as [| u U]; flat; ok.
  - assert (N' : nx (fun b => is_eol b || beq b " "%byte) (t ++ s) = true)
      by (apply (nx_condstore _ _ _ _ _ G3); [reflexivity | nxg]).
    destruct U as [| u U]; flat; ok.
  - destruct U as [| u U]; flat; goto p_command_select; unfold p_command_select.
    + goto p_store. now apply store_go.
    + goto p_uid. unfold p_uid. eapply bind_go; [ok |]. eapply bind_go; [ok |].
      eapply expect_go; [goto p_store; apply store_go; eassumption | reflexivity].
  - pose proof (keys_no_charset _ _ _ G N) as R. destruct U as [| u U]; flat; ok.
  - destruct U as [| u U]; flat; ok.
  - destruct U as [| u U]; flat; ok.
  - destruct U as [| u U]; flat; ok.
Qed.
Lemma command_go t c s : G_command t c -> p_command (t ++ s) = ROk s c.
Proof.
  intros [tt tag u b e G1 G2 G3]. flat. unfold p_command.
  eapply bind_go.
  { unfold terminated. eapply bind_go; [apply comp_tag; [exact G1 | reflexivity] |]. ok. }
  assert (E : p_command_body (u ++ e ++ s) = ROk s b).
  { unfold p_command_body, terminated. eapply bind_go; [apply comp_command_body; [exact G2 | now apply eol_follow] |].
    eapply bind_go; [now apply crlf_go | reflexivity]. }
  cbv beta. assert (G1' : tag = tt) by apply G1. subst tag.
  unfold pmap, bind. now rewrite E.
Qed.
Lemma authenticate_data_go t a s : G_authenticate_data t a -> p_authenticate_data (t ++ s) = ROk s a.
Proof.
  intros [u p e G E | e E]; flat; unfold p_authenticate_data.
  - pose proof (eol_follow _ s E) as N. ok.
  - apply alt_skip; [| ok]. unfold pmap, terminated.
    assert (R : p_base64 ("*"%byte :: e ++ s) = ROk ("*"%byte :: e ++ s) []).
    { unfold p_base64. eapply (map_res_go _ _ _ _ []); [| reflexivity].
      exact (recognize_read _ [] ("*"%byte :: e ++ s) _ eq_refl). }
    apply bind_err. eapply bind_go; [exact R |]. apply bind_err. unfold crlf. now destruct quirk_crlf_relaxed.
Qed.
Lemma idle_done_go t a s : G_idle_done t a -> p_idle_done (t ++ s) = ROk s a.
Proof. intros [k e K E]. flat. unfold p_idle_done. ok. Qed.
End CompCmd.
#[export] Hint Resolve
  comp_id_params comp_entry_values comp_depth comp_getmetadata_options comp_entries
  comp_sort_criteria comp_select_params comp_fetch_modifiers comp_macro_items comp_store_flags
  comp_message : compdb.
#[export] Hint Resolve
  beg_id_params beg_entry_values beg_depth beg_parens beg_entries beg_macro_items beg_store_flags
  beg_message : begdb.
