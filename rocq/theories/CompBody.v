(** Completeness of the parsers of ParseBody.v. *)

From Verif Require Import Bytes BytesFacts Dec Features Nom Types Utf8 Conv Base64 Date Valid FragSpec FragFacts
  EncodeCtx Encode EncodeFacts ParseCore ParseBody ParserFacts QuotedFacts OkCore OkResp RtFacts RtTac RtCore RtBody
  ValueSpec ValueFacts Grammar SoundTac SoundCore SoundCap CompTac CompCore.
Open Scope nat_scope.

Section CompBody.
Context {F : features}.

(** Where an item of a list, or a line, ends *)
Definition ends (b : byte) : bool := beq b " "%byte || beq b ")"%byte || is_eol b.

(** ** Envelopes *)
Lemma many0_sp z c s : Forall (eq bSP) z -> c <> bSP -> exists l, many0 sp (z ++ c :: s) = ROk (c :: s) l.
Proof.
  intros Z C. assert (E : forall b, isb bSP b = false -> refuses sp b).
  { intros b H. apply refuses_char. exact H. }
  assert (R : sp (c :: s) = RErr).
  { apply E. unfold isb. destruct (beq c bSP) eqn:Q; [now apply beq_eq in Q | reflexivity]. }
  assert (G : exists l, many (fun t b => t = [bSP] /\ b = bSP) z l).
  { clear R. induction Z as [| b z <- Z IH]; [exists []; constructor |]. destruct IH as (l & M).
    exists (bSP :: l). now apply (many_more _ [bSP] bSP z l). }
  destruct G as (l & M). exists l. eapply (many_go sp _ yes yes); try exact M; try exact R; try reflexivity.
  - intros t b s0 [-> ->] _. reflexivity.
  - intros t b [-> ->]. reflexivity.
Qed.
Lemma comp_address : complete p_address G_address yes.
Proof.
  intros t a s [z ta a' tb b tc c td d Z Ga Gb Gc Gd] N. unfold p_address. flat.
  set (r := "("%byte :: ta ++ " "%byte :: tb ++ " "%byte :: tc ++ " "%byte :: td ++ ")"%byte :: s).
  eapply (bind_go _ _ _ r tt); [| subst r; ok].
  destruct quirk_spaces_between_addresses.
  - destruct (many0_sp z "("%byte (ta ++ " "%byte :: tb ++ " "%byte :: tc ++ " "%byte :: td ++ ")"%byte :: s)) as (l & E).
    + destruct Z as [-> | [_ Z]]; [constructor | exact Z].
    + discriminate.
    + eapply bind_go; [exact E | reflexivity].
  - destruct Z as [-> | [Z _]]; [reflexivity | discriminate].
Qed.
Definition is_addr (b : byte) : bool := beq b "("%byte || beq b " "%byte.
Lemma beg_address : begins G_address is_addr.
Proof.
  intros t a [z ta a' tb b tc c td d Z Ga Gb Gc Gd]. destruct Z as [-> | [_ Z]]; [reflexivity |].
  destruct Z as [| x z <- Z]; reflexivity.
Qed.
Lemma refuses_addr : refuses p_address ")"%byte.
Proof.
  intros s. unfold p_address. destruct quirk_spaces_between_addresses; reflexivity.
Qed.
Lemma comp_addresses : complete p_addresses G_addresses yes.
Proof.
  intros t l s [u G | u k G] N; unfold p_addresses.
  - ok.
  - apply alt_here. eapply (complete_parens _ (many1 p_address) _ (at_least 1 G_address)); [| | | | exact G | exact N].
    + eapply (complete_many1 _ _ yes is_addr (isb ")"%byte)); [apply comp_address | apply beg_address | reflexivity | reflexivity |].
      intros c E. apply beq_eq in E as ->. exact refuses_addr.
    + reflexivity.
    + exact open_go.
    + exact close_go.
Qed.
Definition is_plist (b : byte) : bool := beq b "("%byte || beq b "N"%byte || beq b "n"%byte.
Lemma beg_nil : forall t, G_nil t -> nx is_plist t = true.
Proof. intros t G. rewrite <- (app_nil_r t). unfold G_nil in G. nxg. Qed.
Lemma beg_addresses : begins G_addresses is_plist.
Proof. intros t l [u G | u k [v w G]]; [now apply beg_nil | reflexivity]. Qed.
Hint Resolve comp_addresses : compdb.
Hint Resolve beg_addresses : begdb.
Lemma comp_envelope : complete p_envelope G_envelope yes.
Proof. intros t a s [] N. unfold p_envelope. flat. ok. Qed.
Lemma beg_envelope : begins G_envelope (isb "("%byte).
Proof. now intros t a []. Qed.
Hint Resolve comp_envelope : compdb.
Hint Resolve beg_envelope : begdb.

(** ** Body structures *)
Lemma comp_pair : complete p_pair G_pair yes.
Proof. intros t a s [] N. unfold p_pair. flat. ok. Qed.
Lemma comp_body_params : complete p_body_fld_param G_body_params yes.
Proof.
  intros t l s [u G | u k G] N; unfold p_body_fld_param; [ok |].
  apply alt_here. eapply comp_plist0; [apply comp_pair | reflexivity | reflexivity | rf | exact G | exact N].
Qed.
Lemma beg_body_params : begins G_body_params is_plist.
Proof. intros t l [u G | u k [v w G]]; [now apply beg_nil | reflexivity]. Qed.
Lemma comp_body_enc : complete p_body_fld_enc G_body_enc yes.
Proof.
  intros t e s [u x G | u Q G] N; unfold p_body_fld_enc.
  - destruct quirk_body_fld_enc_nil_to_empty; [| ok].
    eapply pmap_go; [apply comp_nstring; [first [apply g_nstr_string; exact G | apply g_nstr_nil; exact G] | exact N] | reflexivity].
  - rewrite Q. eapply pmap_go; [apply comp_nstring; [first [apply g_nstr_string; exact G | apply g_nstr_nil; exact G] | exact N] | reflexivity].
Qed.
Lemma beg_body_enc : begins G_body_enc is_nstr.
Proof.
  intros t e [u x G | u Q G]; [eapply (begins_weak _ _ _ beg_string); [reflexivity | exact G] |].
  apply (beg_nstring u None). now constructor.
Qed.
Lemma comp_octets : complete p_body_fld_octets G_octets ndig.
Proof.
  intros t e s [u x G | u x Q G] N; unfold p_body_fld_octets; flat; destruct quirk_rectify_numbers; try discriminate; ok.
Qed.
Definition is_octets (b : byte) : bool := is_digit b || beq b "-"%byte.
Lemma beg_octets : begins G_octets is_octets.
Proof.
  intros t e [u x G | u x Q G]; [| reflexivity].
  eapply (begins_weak _ _ _ beg_number); [vm_compute; reflexivity | exact G].
Qed.
Hint Resolve comp_body_params comp_body_enc comp_octets : compdb.
Hint Resolve beg_body_params beg_body_enc beg_octets : begdb.
Lemma comp_body_fields : complete p_body_fields G_body_fields ndig.
Proof. intros t a s [] N. unfold p_body_fields. flat. ok. Qed.
Lemma beg_body_fields : begins G_body_fields is_plist.
Proof. intros t a []. now apply nx_app, (beg_body_params _ p). Qed.
Hint Resolve comp_body_fields : compdb.
Hint Resolve beg_body_fields : begdb.

Definition is_bext (b : byte) : bool := is_nstr b || is_digit b || beq b "("%byte.
Lemma beg_body_extension d : begins (G_body_extension d) is_bext.
Proof.
  intros t a [x u n G | x u n G | x u l [v w G]]; [| | reflexivity].
  - eapply (begins_weak _ _ _ beg_nstring); [vm_compute; reflexivity | exact G].
  - eapply (begins_weak _ _ _ beg_number); [vm_compute; reflexivity | exact G].
Qed.
Lemma comp_body_extension d : complete (p_body_extension (S d)) (G_body_extension d) ndig.
Proof.
  induction d as [| d IH]; intros t a s G N; inversion G as [d' u n G' E1 E2 E3 | d' u n G' E1 E2 E3 | d' u l G' E1 E2 E3]; subst;
    cbn [p_body_extension].
  1-4: ok.
  apply alt_skip; [destruct G'; flat; rej |]. apply alt_skip; [destruct G'; flat; rej |].
  apply alt_here. eapply pmap_go; [| reflexivity].
  apply vecn_go; [eapply parens_len; [apply sep_by_len | exact G'] |].
  eapply comp_plist1; [exact IH | reflexivity | reflexivity | exact G' |]. now apply nx_yes in N.
Qed.
Lemma comp_dsp : complete p_body_fld_dsp G_body_dsp yes.
Proof. intros t a s [] N; unfold p_body_fld_dsp; flat; ok. Qed.
Lemma beg_dsp : begins G_body_dsp is_plist.
Proof. intros t a []; [now apply beg_nil | reflexivity]. Qed.
Lemma comp_body_lang : complete p_body_fld_lang G_body_lang yes.
Proof.
  intros t a s [u G | u x G | u l G] N; unfold p_body_fld_lang.
  - apply alt_here. eapply pmap_go; [apply comp_nstring; [first [apply g_nstr_string; exact G | apply g_nstr_nil; exact G] | exact N] | reflexivity].
  - apply alt_here. eapply pmap_go; [apply comp_nstring; [first [apply g_nstr_string; exact G | apply g_nstr_nil; exact G] | exact N] | reflexivity].
  - apply alt_skip; [destruct G; flat; rej |]. apply alt_here.
    eapply comp_plist1; [apply comp_string | reflexivity | reflexivity | exact G | exact N].
Qed.
Definition is_blang (b : byte) : bool := is_nstr b || beq b "("%byte.
Lemma beg_body_lang : begins G_body_lang is_blang.
Proof.
  intros t a [u G | u x G | u l [v w G]]; [| | reflexivity].
  - eapply nx_weak; [now apply beg_nil | vm_compute; reflexivity].
  - eapply (begins_weak _ _ _ beg_string); [vm_compute; reflexivity | exact G].
Qed.
Hint Resolve comp_dsp comp_body_lang : compdb.
Hint Resolve beg_dsp beg_body_lang : begdb.
Definition rpar : byte -> bool := isb ")"%byte.
Lemma beg_after_sp {A} (L : lang A) : begins (after (bs " ") L) (isb " "%byte).
Proof. now apply begins_after. Qed.
Lemma nx_many {A} (L : lang A) g f t l s : begins L g -> many L t l -> sub_of g f = true -> nx f s = true ->
  nx f (t ++ s) = true.
Proof.
  intros B M S N. destruct M as [| u a v k G M]; [exact N |]. rewrite <- app_assoc. apply nx_app.
  eapply nx_weak; [eapply B; exact G | exact S].
Qed.
Lemma nx_opt {A} (L : lang A) g f t l s : begins L g -> optional L t l -> sub_of g f = true -> nx f s = true ->
  nx f (t ++ s) = true.
Proof.
  intros B M S N. destruct M as [| u a G]; [exact N |]. apply nx_app.
  eapply nx_weak; [eapply B; exact G | exact S].
Qed.
Lemma comp_location : complete p_location G_location rpar.
Proof.
  intros t a s [u l v e G M] N. unfold p_location. flat.
  eapply bind_go; [ok |]. eapply bind_go.
  { apply comp_nstring; [exact G |]. eapply nx_many; [apply beg_after_sp | exact M | reflexivity | now apply nx_yes in N]. }
  eapply bind_go; [| reflexivity].
  eapply (many_go (sp ;;; p_body_extension 8) _ ndig); [| apply beg_after_sp | reflexivity | exact M | | ].
  - apply (complete_after sp bSP (bs " ") _ _ _ (comp_body_extension 7)). exact sp_go.
  - fb.
  - nxg.
Qed.
Lemma beg_location : begins G_location (isb " "%byte).
Proof. now intros t a []. Qed.
Lemma comp_opt_rp {A} (p : parser A) L : complete p L rpar -> refuses p ")"%byte ->
  complete (opt p) (optional L) rpar.
Proof.
  intros C R. eapply complete_opt; [apply C | reflexivity |]. intros c E. now apply beq_eq in E as ->.
Qed.
Lemma nx_opt_rp {A} (L : lang A) t a s : begins L (isb " "%byte) -> optional L t a -> nx rpar s = true ->
  nx ends (t ++ s) = true.
Proof. intros B G N. eapply nx_opt; [exact B | exact G | reflexivity | nxg]. Qed.
Lemma comp_opt_location : complete (opt p_location) (optional G_location) rpar.
Proof. apply comp_opt_rp; [apply comp_location | rf]. Qed.
Hint Resolve comp_opt_location : compdb.
Lemma comp_language : complete p_language G_language rpar.
Proof.
  intros t a s [u l v e G M] N. unfold p_language. flat.
  pose proof (nx_opt_rp _ _ _ _ beg_location M N) as N'.
  eapply bind_go; [ok |]. eapply bind_go; [apply comp_body_lang; [exact G | nxg] |]. ok.
Qed.
Lemma beg_language : begins G_language (isb " "%byte).
Proof. now intros t a []. Qed.
Lemma comp_opt_language : complete (opt p_language) (optional G_language) rpar.
Proof. apply comp_opt_rp; [apply comp_language | rf]. Qed.
Hint Resolve comp_opt_language : compdb.
Lemma comp_disposition : complete p_disposition G_disposition rpar.
Proof.
  intros t a s [u l v e G M] N. unfold p_disposition. flat.
  pose proof (nx_opt_rp _ _ _ _ beg_language M N) as N'.
  eapply bind_go; [ok |]. eapply bind_go; [apply comp_dsp; [exact G | nxg] |]. ok.
Qed.
Lemma beg_disposition : begins G_disposition (isb " "%byte).
Proof. now intros t a []. Qed.
Lemma comp_opt_disposition : complete (opt p_disposition) (optional G_disposition) rpar.
Proof. apply comp_opt_rp; [apply comp_disposition | rf]. Qed.
Hint Resolve comp_opt_disposition : compdb.
Lemma comp_single_ext : complete (sp ;;; p_body_ext_1part) (after (bs " ") G_single_ext) rpar.
Proof.
  apply (complete_after sp bSP (bs " ")); [| exact sp_go].
  intros t a s [u l v e G M] N. unfold p_body_ext_1part. flat.
  pose proof (nx_opt_rp _ _ _ _ beg_disposition M N) as N'.
  eapply bind_go; [apply comp_nstring; [exact G | nxg] |]. ok.
Qed.
Lemma comp_multi_ext : complete (sp ;;; p_body_ext_mpart) (after (bs " ") G_multi_ext) rpar.
Proof.
  apply (complete_after sp bSP (bs " ")); [| exact sp_go].
  intros t a s [u l v e G M] N. unfold p_body_ext_mpart. flat.
  pose proof (nx_opt_rp _ _ _ _ beg_disposition M N) as N'.
  eapply bind_go; [apply comp_body_params; [exact G | nxg] |]. ok.
Qed.
Lemma comp_opt_single : complete (opt (sp ;;; p_body_ext_1part)) (optional (after (bs " ") G_single_ext)) rpar.
Proof. apply comp_opt_rp; [apply comp_single_ext | rf]. Qed.
Lemma comp_opt_multi : complete (opt (sp ;;; p_body_ext_mpart)) (optional (after (bs " ") G_multi_ext)) rpar.
Proof. apply comp_opt_rp; [apply comp_multi_ext | rf]. Qed.
Hint Resolve comp_opt_single comp_opt_multi : compdb.

(** A quoted word in front of a string *)
Lemma string_kw w t v s : 
  forallb (fun b => negb (beq (lower b) bDQ) && negb (beq (lower b) bBS)) w = true -> G_string t v ->
  tag_no_case (bDQ :: w ++ [bDQ]) (t ++ s) = RErr \/ tag_no_case (bDQ :: w ++ [bDQ]) (t ++ s) = ROk s tt.
Proof.
  intros Hw G. assert (K : forall w' x, quoted_body w' x ->
    tag_no_case (bDQ :: w ++ [bDQ]) (([bDQ] ++ w' ++ [bDQ]) ++ s) = RErr \/
    tag_no_case (bDQ :: w ++ [bDQ]) (([bDQ] ++ w' ++ [bDQ]) ++ s) = ROk s tt).
  { intros w' x Q. apply quoted_body_spec in Q as ->.
    destruct (kw_quoted w Hw x) as [E | E].
    - left. now apply kw_more.
    - right. now apply kw_done. }
  destruct G as [t x [w' x' Q _] | w' x _ Q _ _ | t l G]; [eapply K; exact Q | eapply K; exact Q |].
  left. destruct G. reflexivity.
Qed.
Lemma beg_single_ext : begins G_single_ext is_nstr.
Proof. intros t a [u m v x G M]. apply nx_app. now apply (beg_nstring u m). Qed.
Lemma tail_no {A B} (q : parser A) (k : A -> parser B) t x s :
  optional (after (bs " ") G_single_ext) t x -> (forall b, is_nstr b = true -> refuses q b) ->
  (sp ;;; bind q k) (t ++ ")"%byte :: s) = RErr.
Proof.
  intros G R. destruct G as [| t x [u y G]]; [reflexivity |]. flat.
  eapply bind_go; [ok |]. apply bind_err. eapply rej_begins; [apply beg_single_ext | exact G | exact R].
Qed.
Lemma nx_tail {A} (L : lang A) t x s : optional (after (bs " ") L) t x ->
  nx ends (t ++ ")"%byte :: s) = true.
Proof. intros G. eapply nx_opt_rp; [apply beg_after_sp | exact G | reflexivity]. Qed.
Lemma msg_no pb tt ty ts sub tb b tx x s : G_string tt ty -> G_string ts sub ->
  G_body_fields tb b -> optional (after (bs " ") G_single_ext) tx x ->
  p_body_type_msg pb (tt ++ " "%byte :: ts ++ " "%byte :: tb ++ tx ++ ")"%byte :: s) = RErr.
Proof.
  intros G1 G2 G3 G4. pose proof (nx_tail _ _ _ s G4) as N. unfold p_body_type_msg, p_media_message.
  set (i := tt ++ _).
  assert (E : tag_no_case (bs """MESSAGE"" ""RFC822""") i = RErr \/
    tag_no_case (bs """MESSAGE"" ""RFC822""") i = ROk (" "%byte :: tb ++ tx ++ ")"%byte :: s) Datatypes.tt).
  { change (bs """MESSAGE"" ""RFC822""") with ((bDQ :: bs "MESSAGE" ++ [bDQ]) ++ (bSP :: (bDQ :: bs "RFC822" ++ [bDQ]))).
    rewrite kw_split. unfold i. unfold bind.
    destruct (string_kw (bs "MESSAGE") tt ty (" "%byte :: ts ++ " "%byte :: tb ++ tx ++ ")"%byte :: s) eq_refl G1) as [-> | ->];
      [now left |].
    cbn [tag_no_case]. change (beq (lower " ") (lower bSP)) with true. cbv iota.
    apply (string_kw (bs "RFC822")) with (v := sub); [reflexivity | exact G2]. }
  destruct E as [E | E]; [now apply bind_err |].
  eapply bind_go; [exact E |]. eapply bind_go; [ok |]. eapply bind_go; [ok |].
  eapply tail_no; [exact G4 |]. intros c H. rf.
Qed.
Lemma text_no tt ty ts sub tb b tx x s : G_string tt ty -> G_string ts sub ->
  G_body_fields tb b -> optional (after (bs " ") G_single_ext) tx x ->
  p_body_type_text (tt ++ " "%byte :: ts ++ " "%byte :: tb ++ tx ++ ")"%byte :: s) = RErr.
Proof.
  intros G1 G2 G3 G4. pose proof (nx_tail _ _ _ s G4) as N. unfold p_body_type_text, p_media_text.
  set (i := tt ++ _).
  assert (E : tag_no_case (bs """TEXT"" ") i = RErr \/
    tag_no_case (bs """TEXT"" ") i = ROk (ts ++ " "%byte :: tb ++ tx ++ ")"%byte :: s) Datatypes.tt).
  { change (bs """TEXT"" ") with ((bDQ :: bs "TEXT" ++ [bDQ]) ++ [bSP]).
    rewrite kw_split. unfold i. unfold bind.
    destruct (string_kw (bs "TEXT") tt ty (" "%byte :: ts ++ " "%byte :: tb ++ tx ++ ")"%byte :: s) eq_refl G1) as [-> | ->];
      [now left | now right]. }
  destruct E as [E | E]; [now apply bind_err, bind_err |].
  eapply bind_go; [eapply bind_go; [exact E | ok] |]. eapply bind_go; [ok |]. eapply bind_go; [ok |].
  eapply tail_no; [exact G4 |]. intros c H. rf.
Qed.
Lemma beg_body d : begins (G_body d) (isb "("%byte).
Proof. now intros t a []. Qed.
Lemma at_least_sub {A} n (L L' : lang A) t l : at_least n L t l ->
  (forall u a, L u a -> length u <= length t -> L' u a) -> at_least n L' t l.
Proof.
  intros [M H] K. split; [| exact H]. clear H.
  induction M as [| u a v k G M IH]; [constructor |].
  rewrite app_length in K. constructor; [apply K; [exact G | lia] |].
  apply IH. intros w b Hw Lw. apply K; [exact Hw | lia].
Qed.
Lemma body_go fuel : forall d t b s, G_body d t b -> length t <= fuel -> nx yes s = true ->
  p_body_f fuel (S (S d)) (t ++ s) = ROk s b.
Proof.
  induction fuel as [| fuel IH]; intros d t b s G L N.
  { apply beg_body in G. destruct t; [discriminate | cbn in L; lia]. }
  destruct G as [d tt ty ts sub tb b tx x G1 G2 G3 G4 | d k ts sub tb b tn n tx x K G2 G3 G5 G4
    | d k tb b te e ti i tn n tx x K G3 G6 G7 G5 G4 | d t l ts sub tx x M G2 G4];
    flat; cbn [p_body_f]; unfold delimited;
    (eapply bind_go; [ok |]); (eapply bind_go; [| ok]).
  - apply alt_here. pose proof (nx_tail _ _ _ s G4) as N'. unfold p_body_type_1part.
    eapply bind_go.
    + apply alt_skip; [eapply msg_no; eassumption |]. apply alt_skip; [eapply text_no; eassumption |].
      apply alt_here. unfold p_body_type_basic. ok.
    + ok.
  - apply alt_here. pose proof (nx_tail _ _ _ s G4) as N'. unfold p_body_type_1part.
    eapply bind_go.
    + apply alt_skip; [unfold p_body_type_msg, p_media_message; rej |].
      apply alt_here. unfold p_body_type_text, p_media_text. ok.
    + ok.
  - apply alt_here. pose proof (nx_tail _ _ _ s G4) as N'. unfold p_body_type_1part.
    eapply bind_go.
    + apply alt_here. unfold p_body_type_msg, p_media_message.
      eapply bind_go; [ok |]. eapply bind_go; [ok |]. eapply bind_go; [ok |]. eapply bind_go; [ok |].
      eapply bind_go; [ok |]. eapply bind_go; [ok |].
      eapply bind_go; [apply (IH 5); [exact G7 | | reflexivity] |].
      { revert L. repeat rewrite app_length. cbn [bs length]. lia. }
      ok.
    + ok.
  - pose proof (nx_tail _ _ _ s G4) as N'. cbv beta in *.
    assert (Lt : length t <= fuel /\ 1 <= fuel).
    { assert (1 <= length t).
      { apply (begins_many 0 _ _ (beg_body d)) in M. destruct t; [discriminate | cbn; lia]. }
      revert L. repeat rewrite app_length. cbn [bs length]. lia. }
    apply alt_skip.
    { apply (begins_many 0 _ _ (beg_body d)) in M. unfold p_body_type_1part. fb. }
    apply alt_here. unfold p_body_type_mpart.
    eapply bind_go.
    + apply vecn_go; [apply M |].
      apply (at_least_sub _ _ (fun u a => G_body d u a /\ length u <= fuel)) in M;
        [| intros u a Hu Lu; split; [exact Hu | lia]].
      eapply (complete_many1 _ _ yes (isb "("%byte) (isb " "%byte)); [| | | | | exact M | reflexivity].
      * intros u a r [Hu Lu] Nr. now apply IH.
      * intros u a [Hu Lu]. now apply beg_body in Hu.
      * reflexivity.
      * reflexivity.
      * intros c E. apply beq_eq in E as ->. destruct fuel; [lia |]. rf.
    + ok.
Qed.
Lemma comp_body d : complete (p_body (S (S d))) (G_body d) yes.
Proof.
  intros t b s G N. unfold p_body. apply body_go; [exact G | | exact N]. rewrite app_length. lia.
Qed.
Lemma comp_body8 : complete (p_body 8) (G_body 6) yes.
Proof. apply comp_body. Qed.
Lemma beg_body6 : begins (G_body 6) (isb "("%byte).
Proof. apply beg_body. Qed.
Hint Resolve comp_body8 : compdb.
Hint Resolve beg_body6 : begdb.

(** ** Sections and fetch items *)
Definition npart := no (fun b => is_digit b || beq b "."%byte).
Lemma comp_header_list : complete p_header_list G_header_list yes.
Proof.
  apply complete_vecn; [| apply parens_len, sep_by_len].
  eapply comp_plist1; [apply comp_astring | reflexivity | reflexivity].
Qed.
Lemma dot_go s : tag (bs ".") ("."%byte :: s) = ROk s tt.
Proof. reflexivity. Qed.
Lemma comp_part : complete p_section_part G_part npart.
Proof.
  apply complete_vecn; [| apply sep_by_len].
  eapply (complete_sep1 _ _ ndig _ "."%byte tt); [apply comp_nz | reflexivity | exact dot_go | vm_compute; reflexivity |].
  intros b E. rf.
Qed.
Lemma beg_part : begins G_part is_digit.
Proof. apply begins_sep, beg_nz. Qed.
(** The part number in front of a keyword *)
Lemma part_dot_go t n s : G_part t n -> nx (no is_digit) s = true ->
  p_section_part (t ++ "."%byte :: s) = ROk ("."%byte :: s) n.
Proof.
  intros G N. apply vecn_go; [eapply sep_by_len; exact G |].
  eapply (sep1_go _ _ ndig _ "."%byte tt); [apply comp_nz | reflexivity | exact dot_go | exact G | | reflexivity].
  right. exists s, tt. repeat split; [cbn; lia |]. fb.
Qed.
Hint Resolve comp_header_list comp_part : compdb.
Hint Resolve beg_part : begdb.
Lemma comp_msgtext : complete p_section_msgtext (fun t x =>
    (exists k u l, k ~ "HEADER.FIELDS.NOT" /\ G_header_list u l /\ t = k ++ bs " " ++ u /\ x = PSHeaderFieldsNot l) \/
    (exists k u l, k ~ "HEADER.FIELDS" /\ G_header_list u l /\ t = k ++ bs " " ++ u /\ x = PSHeaderFields l) \/
    (t ~ "HEADER" /\ x = PSHeader) \/ (t ~ "TEXT" /\ x = PSText)) (isb "]"%byte).
Proof.
  intros t x s G N. destruct G as [(k & u & l & K & G & -> & ->) | [(k & u & l & K & G & -> & ->) | [[G ->] | [G ->]]]];
    unfold p_section_msgtext; flat; ok.
Qed.
Lemma comp_section_spec : complete p_section_spec G_section_spec (isb "]"%byte).
Proof.
  intros t x s G N. unfold p_section_spec.
  destruct G as [t n G | p n k G K | p n k t l G K H | p n k t l G K H | p n k G K | t n k G K].
  - apply alt_skip; [| ok]. unfold expect. rej.
  - destruct G as [| p n G]; flat.
    + apply alt_here. eapply expect_go; [unfold p_section_msgtext; ok | reflexivity].
    + apply alt_skip; [unfold expect; rej |]. apply alt_here.
      eapply bind_go; [apply part_dot_go; [exact G | nxg] |]. ok.
  - destruct G as [| p n G]; flat.
    + apply alt_here. eapply expect_go; [unfold p_section_msgtext; ok | reflexivity].
    + apply alt_skip; [unfold expect; rej |]. apply alt_here.
      eapply bind_go; [apply part_dot_go; [exact G | nxg] |]. ok.
  - destruct G as [| p n G]; flat.
    + apply alt_here. eapply expect_go; [unfold p_section_msgtext; ok | reflexivity].
    + apply alt_skip; [unfold expect; rej |]. apply alt_here.
      eapply bind_go; [apply part_dot_go; [exact G | nxg] |]. ok.
  - destruct G as [| p n G]; flat.
    + apply alt_here. eapply expect_go; [unfold p_section_msgtext; ok | reflexivity].
    + apply alt_skip; [unfold expect; rej |]. apply alt_here.
      eapply bind_go; [apply part_dot_go; [exact G | nxg] |]. ok.
  - flat. apply alt_skip; [unfold expect; rej |]. apply alt_here.
    eapply bind_go; [apply part_dot_go; [exact G | nxg] |]. ok.
Qed.
Hint Resolve comp_section_spec : compdb.
Lemma comp_section : complete p_section G_section yes.
Proof.
  intros t x s [u a G] N. unfold p_section. flat. destruct G as [| u a G]; ok.
Qed.
Lemma beg_section : begins G_section (isb "["%byte).
Proof. now intros t a []. Qed.
Lemma comp_section_binary : complete p_section_binary G_section_binary yes.
Proof.
  intros t x s [| u n G] N; unfold p_section_binary; flat; ok.
Qed.
Lemma beg_section_binary : begins G_section_binary (isb "["%byte).
Proof. now intros t a []. Qed.
Lemma comp_partial : complete p_partial G_partial yes.
Proof. intros t x s [] N; unfold p_partial; flat; ok. Qed.
Lemma beg_partial : begins G_partial (isb "<"%byte).
Proof. now intros t a []. Qed.
Lemma comp_opt_partial : complete (opt p_partial) (optional G_partial) ends.
Proof. eapply complete_opt; [apply comp_partial | reflexivity |]. intros c E. rf. Qed.
Hint Resolve comp_section comp_section_binary comp_partial comp_opt_partial : compdb.
Hint Resolve beg_section beg_section_binary beg_partial : begdb.
Lemma nx_partial t x s : optional G_partial t x -> nx ends s = true ->
  nx (fun b => ends b || beq b "<"%byte) (t ++ s) = true.
Proof. intros G N. eapply nx_opt; [apply beg_partial | exact G | vm_compute; reflexivity | nxg]. Qed.
Lemma comp_fetch_att : complete p_fetch_att G_fetch_att ends.
Proof.
  intros t x s G N. unfold p_fetch_att.
  destruct G as [t i G | k t x u p K G1 G2 | k t x u p K G1 G2 | k t x u p K G1 G2 | k t x u p K G1 G2 | k t x K G];
    try pose proof (nx_partial _ _ _ G2 N) as N'; flat.
  - words G; ok.
  - ok.
  - ok.
  - ok.
  - ok.
  - ok.
Qed.
Lemma beg_fetch_att : begins G_fetch_att is_alpha.
Proof.
  intros t x G. rewrite <- (app_nil_r t). destruct G as [t i G | | | | |]; flat; try nxg. words G; nxg.
Qed.
Lemma comp_nstring8 : complete p_nstring8 G_nstring8 yes.
Proof. intros t x s [] N; unfold p_nstring8; ok. Qed.
Definition is_nstr8 (b : byte) : bool := is_nstr b || beq b "~"%byte.
Lemma beg_nstring8 : begins G_nstring8 is_nstr8.
Proof.
  intros t x [u n G | u n []]; [| reflexivity].
  eapply (begins_weak _ _ _ beg_nstring); [vm_compute; reflexivity | exact G].
Qed.
Lemma opt_list_go {A} (p : parser A) L f t l s : complete p L f -> f " "%byte = true -> f ")"%byte = true ->
  refuses p ")"%byte -> list_of (bs " ") L t l ->
  exists o, opt (sep_list1 sp p) (t ++ ")"%byte :: s) = ROk (")"%byte :: s) o /\ dflt o = l.
Proof.
  intros C Fs Fc R G. destruct G as [| t l G].
  - exists None. split; [| reflexivity]. apply opt_no. cbn [app]. unfold sep_list1. apply bind_err, R.
  - exists (Some l). split; [| reflexivity]. apply opt_go.
    eapply sep1_go; [exact C | exact Fs | exact sp_go | exact G | left; reflexivity | exact Fc].
Qed.
Hint Resolve comp_fetch_att comp_nstring8 : compdb.
Hint Resolve beg_fetch_att beg_nstring8 : begdb.
Lemma comp_origin : complete (opt (delimited (tg "<") p_number (tg ">"))) (optional G_origin) (isb " "%byte).
Proof.
  intros t x s G N. destruct G as [| t x [u n G]]; [apply opt_no; rej |].
  flat. ok.
Qed.
Lemma beg_origin : begins G_origin (isb "<"%byte).
Proof. now intros t a []. Qed.
Hint Resolve comp_origin : compdb.
Hint Resolve beg_origin : begdb.
Lemma nx_origin t x s : optional G_origin t x -> nx (isb " "%byte) s = true ->
  nx (fun b => beq b " "%byte || beq b "<"%byte) (t ++ s) = true.
Proof. intros G N. eapply nx_opt; [apply beg_origin | exact G | vm_compute; reflexivity | nxg]. Qed.
Lemma comp_msg_att : complete (alt [p_msg_att_dynamic; p_msg_att_static]) G_msg_att ends.
Proof.
  intros t x s G N.
  destruct G as [k t l K G | k t n E K G | k t e K G | k t d K G | k t x K G | k t x K G | k t n K G | k t x K G
    | k t b K G | k t b K G | k t x u o v d K G1 G2 G3 | k t n K G | k t x u v K G1 G2 | k t x u n K G1 G2]; flat.
  - apply alt_here. unfold p_msg_att_dynamic. apply alt_here. destruct G as [t l G]. flat.
    destruct (opt_list_go p_flag_fetch _ _ t l s comp_flag_fetch eq_refl eq_refl) as (o & E & <-); [rf | exact G |].
    eapply pmap_go; [| reflexivity]. eapply bind_go; [ok |]. unfold delimited.
    eapply bind_go; [ok |]. eapply bind_go; [exact E |]. ok.
  - apply alt_here. unfold p_msg_att_dynamic. destruct G as [t n G]. flat. ok.
  - ok.
  - ok.
  - ok.
  - ok.
  - ok.
  - ok.
  - ok.
  - ok.
  - pose proof (nx_origin u o (" "%byte :: v ++ s) G2 eq_refl) as N'. ok.
  - ok.
  - ok.
  - ok.
Qed.
Lemma beg_msg_att : begins G_msg_att is_alpha.
Proof. intros t x []; nxg. Qed.
Lemma comp_msg_atts : complete p_msg_att (in_parens (sep_by (bs " ") G_msg_att)) yes.
Proof.
  intros t l s G N. unfold p_msg_att. destruct G as [t l G]. flat. unfold delimited.
  eapply bind_go; [ok |]. eapply bind_go; [| ok]. apply vecn_go; [eapply sep_by_len; exact G |].
  eapply (sep1_go _ _ ends _ " "%byte bSP); [exact comp_msg_att | reflexivity | exact sp_go | exact G | left; reflexivity | reflexivity].
Qed.
Hint Resolve comp_msg_atts : compdb.

(** ** Search keys *)
Definition is_key (b : byte) : bool := is_alpha b || is_seq b || beq b "("%byte.
Lemma beg_search_key : begins G_search_key is_key.
Proof.
  intros t k G. rewrite <- (app_nil_r t).
  destruct G as [t k G | k f t x W G | k f t d W G | | | | | | | | | | t x G | t l [u m G]]; flat; try nxg; try (words G; nxg);
    try (words W; nxg); try reflexivity.
Qed.
Lemma sep_by_sub {A} (L L' : lang A) c t l : sep_by c L t l -> (forall u a, L u a -> In a l -> L' u a) ->
  sep_by c L' t l.
Proof.
  induction 1 as [t a G | t a u l G S IH]; intros H; constructor.
  - apply H; [exact G | now left].
  - apply H; [exact G | now left].
  - apply IH. intros v b Gv Iv. apply H; [exact Gv | now right].
Qed.
Lemma depth_in a l : In a l -> key_depth a <= fold_right Nat.max 0 (map key_depth l).
Proof. induction l as [| b l IH]; [easy |]. intros [-> | H]; cbn; [lia | specialize (IH H); lia]. Qed.
Definition G_key (n : nat) : lang search_key := fun t k => G_search_key t k /\ key_depth k < n.
Lemma beg_key n : begins (G_key n) is_key.
Proof. intros t k [G _]. now apply beg_search_key in G. Qed.
Lemma comp_search_key n : complete (p_search_key n) (G_key n) ends.
Proof.
  induction n as [| n IH]; intros t k s [G D] N; [lia |]. cbn [p_search_key].
  destruct G as [t k G | k f t x W G | k f t d W G | k t K G | k t K G | k t a u b K G1 G2 | k t n' K G | k t n' K G
    | k t a K G | k t a u b K G1 G2 | k t x K G | k e eo t n' E K G1 G2 | t x G | t l G]; flat.
  - words G; ok.
  - words W; ok.
  - words W; ok.
  - assert (G_atom t t) as G' by (split; [exact G | reflexivity]). ok.
  - assert (G_atom t t) as G' by (split; [exact G | reflexivity]). ok.
  - ok.
  - ok.
  - ok.
  - cbn [key_depth] in D. assert (H : G_key n t a) by (split; [exact G | lia]). clear G. ok.
  - cbn [key_depth] in D. assert (H1 : G_key n t a) by (split; [exact G1 | lia]).
    assert (H2 : G_key n u b) by (split; [exact G2 | lia]). clear G1 G2. ok.
  - ok.
  - destruct G1 as [| e x G1]; flat; ok.
  - ok.
  - assert (H : in_parens (sep_by (bs " ") (G_key n)) t l).
    { destruct G as [t l G]. constructor. eapply sep_by_sub; [exact G |]. intros u a Gu Iu.
      split; [exact Gu |]. apply depth_in in Iu. cbn [key_depth] in D. lia. }
    assert (E : vec1 (delimited (tg "(") (sep_list1 sp (p_search_key n)) (tg ")")) (t ++ s) = ROk s l).
    { apply vecn_go; [eapply parens_len; [apply sep_by_len | exact H] |].
      eapply comp_plist1; [exact IH | reflexivity | reflexivity | exact H |]. now apply nx_yes in N. }
    clear G. destruct H as [t l G]. rewrite <- app_assoc in *. cbn [bs app] in *.
    repeat (apply alt_skip; [rej |]). apply alt_here. eapply pmap_go; [exact E | reflexivity].
Qed.
Lemma comp_search_keys : complete p_search_keys G_search_keys is_eol.
Proof.
  intros t l s [u k G H] N. apply vecn_go; [eapply sep_by_len; exact G |].
  assert (G' : sep_by (bs " ") (G_key 9) u k).
  { eapply sep_by_sub; [exact G |]. intros v a Gv Iv. split; [exact Gv |].
    rewrite Forall_forall in H. apply H in Iv. lia. }
  eapply comp_list1; [apply comp_search_key | reflexivity | | | exact G' | exact N]; vm_compute; reflexivity.
Qed.
Lemma beg_search_keys : begins G_search_keys is_key.
Proof. intros t l [u k G H]. eapply begins_sep; [apply beg_search_key | exact G]. Qed.
Hint Resolve comp_search_keys : compdb.
Hint Resolve beg_search_keys : begdb.
End CompBody.
#[export] Hint Resolve
  comp_addresses comp_envelope comp_body_params comp_body_enc comp_octets comp_body_fields
  comp_dsp comp_body_lang comp_opt_location comp_opt_language comp_opt_disposition comp_opt_single
  comp_opt_multi comp_body8 comp_header_list comp_part comp_section_spec comp_section
  comp_section_binary comp_partial comp_opt_partial comp_fetch_att comp_nstring8 comp_origin
  comp_msg_atts comp_search_keys : compdb.
#[export] Hint Resolve
  beg_addresses beg_envelope beg_body_params beg_body_enc beg_octets beg_body_fields beg_dsp
  beg_body_lang beg_body6 beg_part beg_section beg_section_binary beg_partial beg_fetch_att
  beg_nstring8 beg_origin beg_search_keys : begdb.
