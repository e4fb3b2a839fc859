(** C71: what is sent is documented. For every feature set and every message of the types (invariants
    of the types only: v_... LType), the bytes of its encoding are a text of the syntax written down in
    the doc comments (AbnfSpec.v), without the marked extras: nothing is sent that only a lenient
    receiver takes. The messages for which this does not hold are the ones listed in SentSpec.v. *)

From Verif Require Import Bytes BytesFacts Dec Features Nom Types Conv SeqSet Base64 EncodeCtx Encode EncodeFacts EncodeApi EncFragFacts Valid ValueSpec ValueFacts
  RoundTripSpec OtherCode CleanSpec CleanFacts CleanEncFacts AbnfSpec AbnfFacts SentSpec SentFacts SentCmd SentResp.
Open Scope N_scope.
Open Scope abnf_scope.

(** Without [ext_utf8] only text is written outside of literals. *)
Section Plain.
Context {F : features}.
Lemma fine_ok l : ext_utf8 = false -> fine l -> small_literals (fragments (l ++ e_crlf)) -> regular (fragments (l ++ e_crlf)).
Proof.
  intros U H. specialize (H U). rewrite fragments_frags.
  enough (X : forall acc, Forall (fun b => bN b <> 0 /\ b <> bCR /\ b <> bLF) acc ->
    small_literals (frags acc (l ++ e_crlf)) -> regular (frags acc (l ++ e_crlf))) by now apply X.
  induction l as [| [b | is8 m d] l IH]; intros acc A L; cbn [app frags forallb neat] in *.
  - cbn [e_crlf W map frags]. rewrite <- app_assoc. cbn [app]. assert (X : plain_line (acc ++ [bCR; bLF])) by now exists acc.
    destruct acc; (constructor; [assumption | constructor]).
  - apply andb_prop in H as [B H]. apply IH; [assumption | | assumption]. apply Forall_app. split; [assumption |].
    constructor; [| constructor]. apply textb_text in B as [[B _] B2]. split; [lia | exact B2].
  - apply andb_prop in H as [_ H]. inversion L as [| ? ? _ L1]; subst. inversion L1 as [| ? ? L2 L3]; subst.
    constructor; [| constructor; [assumption |]].
    + destruct (header_end is8 m (lenN d)) as [u E]. rewrite E, app_assoc. exists (acc ++ u). split; [reflexivity |].
      apply Forall_app. split; [assumption |]. unfold lit_header in E.
      assert (X : u ++ [bCR; bLF] = ((if is8 then ["~"%byte] else []) ++ "{"%byte :: dec (lenN d) ++
        match m with Sync => [] | NonSync => ["+"%byte] end ++ ["}"%byte]) ++ [bCR; bLF]).
      { rewrite <- E. rewrite <- !app_assoc. cbn [app]. rewrite <- !app_assoc. reflexivity. }
      apply snoc2_inj in X. rewrite X. assert (Dg : Forall (fun b => bN b <> 0 /\ b <> bCR /\ b <> bLF) (dec (lenN d))).
      { pose proof (plain_dec (lenN d)) as G. rewrite forallb_forall in G. apply Forall_forall. intros b I. apply G, textb_text in I as [[I _] I2].
        split; [lia | exact I2]. }
      apply Forall_app. split; [destruct is8; repeat constructor; discriminate |]. constructor; [repeat split; discriminate |].
      apply Forall_app. split; [assumption |]. destruct m; repeat constructor; discriminate.
    + apply IH; [assumption | constructor | assumption].
Qed.
Lemma fine_command c : v_command LType c = true -> exists l, e_command c = l ++ e_crlf /\ fine l.
Proof.
  intros V. unfold v_command in V. conj. exists (e_bytes (cmd_tag c) ++ spc ++ e_command_body (cmd_body c)).
  split; [unfold e_command; now rewrite !app_assoc |]. apply fine_app; [now apply fine_W, plain_tag |].
  apply fine_app; [apply fine_spc | now apply (fine_command_body LType)].
Qed.
Lemma fine_authenticate_data a : exists l, e_authenticate_data a = l ++ e_crlf /\ fine l.
Proof.
  destruct a as [d |]; cbn [e_authenticate_data]; (eexists; split; [reflexivity |]); apply fine_W; [apply plain_b64 | reflexivity].
Qed.
Lemma code_texts c : doc_code c -> Forall TEXT_CHAR (code_text c).
Proof.
  assert (A : forall s, some_of ATOM_CHAR s -> Forall TEXT_CHAR s).
  { intros s H. apply atom_ok_spec in H. apply plain_atom in H. rewrite forallb_forall in H. apply Forall_forall. intros b I. now apply textb_text, H. }
  assert (T : forall s, code_tail s -> Forall TEXT_CHAR s).
  { intros s [_ H]. revert H. apply Forall_impl. tauto. }
  destruct c as [[] |]; cbn [code_text doc_code]; intros H; try solve [constructor | auto].
  destruct H as [H | (a & u & -> & H & G)]; [auto |]. apply Forall_app. split; [auto |]. apply Forall_app. split; [| auto].
  constructor; [| constructor]. now apply textb_text.
Qed.
Lemma fine_greeting o g : v_greeting LType o g = true -> doc_greeting g -> exists l, e_greeting g = l ++ e_crlf /\ fine l.
Proof.
  intros V S. apply code_texts in S. unfold v_greeting, v_code_text in V. conj. unfold e_greeting. rewrite !app_assoc. eexists. split; [reflexivity |].
  apply fine_app; [apply fine_app; [apply fine_app |] |].
  - now apply fine_W.
  - now destruct (gr_kind g); apply fine_W.
  - apply fine_spc.
  - apply (fine_code_text LType o); [exact S | assumption | now destruct (gr_code g)].
Qed.
Lemma fine_response o r : v_response LType o r = true -> doc_response r -> exists l, e_response r = l ++ e_crlf /\ fine l.
Proof.
  intros V S. destruct r as [c | d | s]; cbn [v_response e_response] in *.
  - destruct c as [c t | d]; cbn [e_continuation doc_response] in *; rewrite !app_assoc; (eexists; split; [reflexivity |]);
      (apply fine_app; [now apply fine_W |]).
    + apply code_texts in S. apply (fine_code_text LType o); [exact S | |]; destruct c as [c |]; cbn [v_continuation vopt] in *; conj; auto.
    + apply fine_W, plain_b64.
  - exists (data_body d). split; [apply data_body_eq | now apply (fine_data LType)].
  - apply (fine_status o); [assumption |]. destruct s; cbn [response_code doc_response] in *; now apply code_texts.
Qed.
Lemma regular_W s : Forall (fun b => bN b <> 0 /\ b <> bCR /\ b <> bLF) s -> regular (frags [] (W s ++ e_crlf)).
Proof.
  intros H. enough (X : forall acc, Forall (fun b => bN b <> 0 /\ b <> bCR /\ b <> bLF) acc -> regular (frags acc (W s ++ e_crlf))) by now apply X.
  induction H as [| b s B H IH]; intros acc A.
  - cbn [W map app e_crlf frags]. rewrite <- app_assoc. cbn [app]. assert (X : plain_line (acc ++ [bCR; bLF])) by now exists acc.
    destruct acc; (constructor; [assumption | constructor]).
  - cbn [W map app frags]. apply IH. apply Forall_app. auto.
Qed.
End Plain.

Theorem C71_command : forall (F : features) c, v_command LType c = true -> doc_command c -> regular (encode_command c) ->
  documented Command (dump_fragments (encode_command c)).
Proof. intros F c V S R. unfold encode_command in *. rewrite dump_fragments_eq. now apply (l_command LType). Qed.
Theorem C71_authenticate_data : forall (F : features) a, documented AuthenticateData (dump_fragments (encode_authenticate_data a)).
Proof.
  intros F a. unfold encode_authenticate_data. rewrite dump_fragments_eq. apply l_authenticate_data.
  destruct a as [d |]; [| repeat constructor; exists (bs "*"); split; [reflexivity | repeat constructor; discriminate]].
  cbn [e_authenticate_data]. rewrite fragments_frags. apply (regular_W (b64_encode d)).
  pose proof (plain_b64 d) as G. rewrite forallb_forall in G. apply Forall_forall. intros b I. apply G, textb_text in I as [[I _] I2]. split; [lia | exact I2].
Qed.
Theorem C71_idle_done : forall (F : features) u, documented IdleDone (dump_fragments (encode_idle_done u)).
Proof. intros F u. unfold encode_idle_done. rewrite dump_fragments_eq. apply l_idle_done. Qed.
Theorem C71_greeting : forall (F : features) g, v_greeting LType other_name g = true -> doc_greeting g -> regular (encode_greeting g) ->
  documented Greeting (dump_fragments (encode_greeting g)).
Proof. intros F g V S R. unfold encode_greeting in *. rewrite dump_fragments_eq. now apply (l_greeting LType other_name). Qed.
Theorem C71_response : forall (F : features) r, v_response LType other_name r = true -> doc_response r -> regular (encode_response r) ->
  documented Response (dump_fragments (encode_response r)).
Proof. intros F r V S R. unfold encode_response in *. rewrite dump_fragments_eq. now apply (l_response LType other_name). Qed.

(** Without UTF-8 in quoted strings only the length of literals matters. *)
Theorem C71_command_plain : forall (F : features) c, ext_utf8 = false -> v_command LType c = true -> doc_command c ->
  small_literals (encode_command c) -> documented Command (dump_fragments (encode_command c)).
Proof.
  intros F c U V S L. apply C71_command; [assumption .. |]. unfold encode_command in *. destruct (fine_command c V) as (l & E & H).
  rewrite E in *. now apply fine_ok.
Qed.
Theorem C71_greeting_plain : forall (F : features) g, ext_utf8 = false -> v_greeting LType other_name g = true -> doc_greeting g ->
  small_literals (encode_greeting g) -> documented Greeting (dump_fragments (encode_greeting g)).
Proof.
  intros F g U V S L. apply C71_greeting; [assumption .. |]. unfold encode_greeting in *. destruct (fine_greeting other_name g V S) as (l & E & H).
  rewrite E in *. now apply fine_ok.
Qed.
Theorem C71_response_plain : forall (F : features) r, ext_utf8 = false -> v_response LType other_name r = true -> doc_response r ->
  small_literals (encode_response r) -> documented Response (dump_fragments (encode_response r)).
Proof.
  intros F r U V S L. apply C71_response; [assumption .. |]. unfold encode_response in *. destruct (fine_response other_name r V S) as (l & E & H).
  rewrite E in *. now apply fine_ok.
Qed.

(** Codes are codes of the documented syntax. *)
Theorem C71_greeting_code : forall (F : features) g c, v_greeting LType other_name g = true -> gr_code g = Some c -> doc_code (Some c) ->
  regular (encode_greeting g) -> exists x, documented RespTextCode x /\ (known_code c -> documented known_codes x) /\
  dump_fragments (encode_greeting g) = greeting_lead g ++ bs "[" ++ x ++ bs "] " ++ gr_text g ++ [bCR; bLF].
Proof.
  intros F [k c0 t] c V E S R. cbn [gr_code gr_text gr_kind] in *. subst. unfold encode_greeting, e_greeting, e_code_text in *.
  cbn [gr_code gr_text gr_kind e_opt] in *. rewrite dump_fragments_eq. exists (dump (e_code c)).
  rewrite !app_assoc in R. apply regular_ok in R. rewrite <- !app_assoc in R. unfold v_greeting, v_code_text in V. cbn [gr_code gr_text] in V. conj.
  do 4 apply Forall_app in R as [_ R]. apply Forall_app in R as [R _]. split; [| split].
  - now apply (l_code LType other_name c t).
  - intros X. now apply (l_known_code LType other_name c t).
  - rewrite !dump_app. unfold greeting_lead, e_crlf, spc, e_bytes. cbn [gr_kind]. rewrite !dump_W. rewrite <- !app_assoc. destruct k; reflexivity.
Qed.
Theorem C71_response_code : forall (F : features) r c t, v_response LType other_name r = true -> coded r = Some (c, t) -> doc_code (Some c) ->
  regular (encode_response r) -> exists x, documented RespTextCode x /\ (known_code c -> documented known_codes x) /\
  dump_fragments (encode_response r) = lead r ++ bs "[" ++ x ++ bs "] " ++ t ++ [bCR; bLF].
Proof.
  intros F r c t V E S R. unfold encode_response in *. rewrite dump_fragments_eq. exists (dump (e_code c)).
  assert (X : exists l, e_response r = l ++ W (bs "[") ++ e_code c ++ W (bs "] ") ++ e_bytes t ++ e_crlf /\ dump l = lead r /\ exists u, v_code LType other_name c u = true).
  { destruct r as [[[c' |] t' | d] | d | [[k [c' |] t'] | g [k [c' |] t'] | [c' |] t']]; cbn [coded sb_code sb_text] in E; try discriminate; injection E as -> ->;
      cbn [v_response v_continuation v_status v_status_body v_code_text sb_code sb_text] in V; unfold v_status_body, v_code_text in V; cbn [sb_code sb_text] in V; conj;
      cbn [e_response e_continuation e_status e_code_text e_opt sb_kind sb_code sb_text lead]; unfold e_code_text; cbn [e_opt].
    all: rewrite <- ?app_assoc.
    - exists (W (bs "+ ")). repeat split; eauto.
    - exists (W (bs "*") ++ spc ++ e_status_kind k ++ spc). rewrite <- !app_assoc. split; [unfold e_status, e_code_text; cbn [sb_kind sb_code sb_text e_opt]; rewrite <- !app_assoc; reflexivity | split; [destruct k; reflexivity | eauto]].
    - exists (e_bytes g ++ spc ++ e_status_kind k ++ spc). rewrite <- !app_assoc. split; [unfold e_status, e_code_text; cbn [sb_kind sb_code sb_text e_opt]; rewrite <- !app_assoc; reflexivity | split; [unfold e_bytes; rewrite dump_app, dump_W; destruct k; reflexivity | eauto]].
    - exists (W (bs "*") ++ spc ++ W (bs "BYE") ++ spc). split; [unfold e_status, e_code_text; cbn [e_opt]; rewrite <- !app_assoc; reflexivity | split; [reflexivity | eauto]]. }
  destruct X as (l & E2 & L & u & V2). rewrite E2 in *.
  rewrite !app_assoc in R. apply regular_ok in R. rewrite <- !app_assoc in R. do 2 apply Forall_app in R as [_ R]. apply Forall_app in R as [R _]. split; [| split].
  - now apply (l_code LType other_name c u).
  - intros X. now apply (l_known_code LType other_name c u).
  - rewrite !dump_app, L. unfold e_crlf, e_bytes. rewrite !dump_W. reflexivity.
Qed.
Print Assumptions C71_command.
Print Assumptions C71_authenticate_data.
Print Assumptions C71_idle_done.
Print Assumptions C71_greeting.
Print Assumptions C71_response.
Print Assumptions C71_command_plain.
Print Assumptions C71_greeting_plain.
Print Assumptions C71_response_plain.
Print Assumptions C71_greeting_code.
Print Assumptions C71_response_code.

(** The theorems at work *)
Ltac is_regular := repeat (apply Forall_cons; [first [vm_compute; reflexivity | eexists; split; [match goal with |- ?t = _ =>
  let n := eval vm_compute in (firstn (length t - 2) t) in instantiate (1 := n) end; vm_compute; reflexivity | repeat constructor; discriminate]] |]); constructor.
Definition sent_command : command := mkCommand (bs "a1") (CSelect (MOther (AString (ILiteral (mkLit [xc3; xa9; bLF] Sync))))
  [SPQResync 1 2 (Some [SRange (SValue 3) (SValue 9)]) None]).
Example C71_command_hyp : let F := all_features in @v_command F LType sent_command = true /\ @doc_command F sent_command /\ regular (@encode_command F sent_command).
Proof.
  split; [reflexivity |]. split; [| is_regular]. constructor; [| constructor]. split; [| discriminate]. intros s [= <-].
  constructor; [| constructor]. split; discriminate.
Qed.
Example C71_command_bytes : documented (F := all_features) Command (bs "a1 SELECT {3}" ++ [bCR; bLF; xc3; xa9; bLF] ++ bs " (QRESYNC (1 2 3:9))" ++ [bCR; bLF]).
Proof. exact (C71_command all_features sent_command (proj1 C71_command_hyp) (proj1 (proj2 C71_command_hyp)) (proj2 (proj2 C71_command_hyp))). Qed.
Definition sent_greeting : greeting := mkGreeting GKOk (Some (CdCapability [CapImap4Rev1; CapIdle])) (bs "hi").
Example C71_greeting_bytes : documented (F := default_features) Greeting (bs "* OK [CAPABILITY IMAP4REV1 IDLE] hi" ++ [bCR; bLF]).
Proof. apply (C71_greeting default_features sent_greeting); [reflexivity | left; reflexivity | is_regular]. Qed.
Example C71_code_bytes : exists x, documented (F := default_features) (@known_codes default_features) x /\ bs "* OK [CAPABILITY IMAP4REV1 IDLE] hi" ++ [bCR; bLF] = bs "* OK [" ++ x ++ bs "] hi" ++ [bCR; bLF].
Proof.
  destruct (C71_greeting_code default_features sent_greeting _ eq_refl eq_refl (or_introl eq_refl)) as (x & _ & X & E); [is_regular |].
  exists x. split; [exact (X I) | exact E].
Qed.
Definition sent_response : response := RData (DFetch 7 [MDUid 3; MDBodyExt None None (Some (ILiteral (mkLit [xff; bLF] Sync)));
  MDBody (BSSingle (mkBasic [(IQuoted (bs "charset"), IQuoted (bs "utf-8"))] None None (IQuoted (bs "7bit")) 12) (SFText (IQuoted (bs "plain")) 1) None)]).
Example C71_response_hyp : let F := default_features in @v_response F LType other_name sent_response = true /\ @doc_response F sent_response /\
  small_literals (@encode_response F sent_response).
Proof. split; [vm_compute; reflexivity |]. split; [cbn; repeat constructor | repeat constructor]. Qed.
Example C71_response_bytes : documented (F := default_features) Response (dump_fragments (@encode_response default_features sent_response)).
Proof. destruct C71_response_hyp as (V & S & L). now apply C71_response_plain. Qed.
(** The codes that are not known: any atom, which a text may follow *)
Example known_codes_rest : forall F : features, exists extra, rules RespTextCode =
  Or (Or known_codes (Atom ^ opt (SP ^ some (Chr (fun b => TEXT_CHAR b /\ b <> "]"%byte))))) (Extra extra).
Proof. intros F. eexists. reflexivity. Qed.
