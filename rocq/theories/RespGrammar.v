(** Soundness and completeness of the parsers of ParseResp.v: texts, greetings and responses. *)

From Verif Require Import Bytes BytesFacts Dec Features Nom Types Utf8 Conv Base64 Date Valid FragSpec FragFacts
  EncodeCtx Encode EncodeFacts ParseCore ParseBody ParseCmd ParseResp ParserFacts QuotedFacts OkTac OkCore OkResp
  DecodeFacts RtFacts RtTac RtCore RtBody RtResp OtherCode
  ValueSpec ValueFacts Grammar SoundTac SoundCore SoundBody SoundCmd SoundCap SoundResp CompTac CompCore CompBody CompCmd CompResp.
Open Scope nat_scope.

Section RespGrammar.
Context {F : features}.

(** ** Texts *)
Lemma eol_tail e s : eol e -> tail (e ++ s).
Proof.
  intros [-> | [_ ->]].
  - exists [], bCR, (bLF :: s). auto.
  - exists [], bLF, s. auto.
Qed.
Lemma code_char_spec b : is_code_other_char b = true <-> CODE_CHAR b.
Proof.
  unfold is_code_other_char, CODE_CHAR. rewrite !andb_true_iff, !negb_true_iff.
  destruct (beq_spec b "]"%byte), (beq_spec b bCR), (beq_spec b bLF); intuition congruence.
Qed.
Lemma code_chars t : forallb is_code_other_char t = true <-> many_of CODE_CHAR t.
Proof.
  rewrite forallb_forall. unfold many_of. rewrite Forall_forall.
  split; intros H b I; apply code_char_spec; auto.
Qed.
Lemma code_end_no_panic i : code_end i <> RPanic.
Proof.
  apply (okk_panic (v := v_known)). intros k. eapply ok_terminated; [apply ok_p_resp_text_code | oks].
Qed.
Lemma code_end_go t c s : G_known_code t c -> code_end (t ++ "]"%byte :: s) = ROk s c.
Proof.
  intros G. unfold code_end, terminated. eapply bind_go; [apply comp_known_code; [exact G | reflexivity] |].
  eapply bind_go; [now apply tag_go | reflexivity].
Qed.
Lemma code_end_inv i r c : code_end i = ROk r c -> exists t, i = t ++ "]"%byte :: r /\ G_known_code t c.
Proof.
  unfold code_end, terminated. intros H. apply bind_inv in H as (r1 & a & E & H).
  apply bind_inv in H as (r2 & u & E2 & H). inv H. apply tag_inv in E2 as ->.
  apply sound_resp_text_code in E as (t & -> & G). exists t. split; [reflexivity | exact G].
Qed.
Lemma code_end_cases w e s : eol e -> code_end (w ++ e ++ s) = RErr \/
  exists t w' c, w = t ++ "]"%byte :: w' /\ G_known_code t c.
Proof.
  intros He. pose proof (eol_tail e s He) as T. set (x := e ++ s) in *.
  assert (Nx : forall r, x <> "]"%byte :: r).
  { intros r. subst x. destruct He as [-> | [_ ->]]; discriminate. }
  destruct (code_end (w ++ x)) as [r c | | | f |] eqn:E; auto.
  all: try (exfalso; exact (code_end_no_panic _ E)).
  all: pose proof E as E0; unfold code_end, terminated, bind in E.
  all: destruct (loc_p_resp_text_code w x x T T) as [| | w1 a]; try discriminate.
  all: destruct w1 as [| b w1]; cbn [app] in E.
  all: try (apply tail_cons in T as (b & y & Y & _); rewrite Y in *; cbn in E;
    destruct (beq_spec b "]"%byte) as [-> | N]; [exfalso; eapply Nx; reflexivity | discriminate]).
  all: cbn in E; destruct (beq_spec b "]"%byte) as [-> | N]; try discriminate.
  right. injection E as <- <-. apply code_end_inv in E0 as (t & E0 & G).
  exists t, w1, a. split; [| exact G]. apply (app_inv_tail x). rewrite E0, <- app_assoc. reflexivity.
Qed.
Lemma after_code_go t x e s : G_text_after_code t x -> eol e -> p_text_after_code (t ++ e ++ s) = ROk (e ++ s) x.
Proof.
  intros G He. unfold p_text_after_code. pose proof (eol_follow _ s He) as N.
  assert (N' : nx (no is_text_char) (e ++ s) = true) by (eapply nx_weak; [exact N | vm_compute; reflexivity]).
  destruct G as [t G | Q]; flat.
  - assert (E : (sp ;;; p_text) (" "%byte :: t ++ e ++ s) = ROk (e ++ s) t).
    { eapply bind_go; [apply sp_go |]. apply comp_text; [| exact N']. split; [exact G | reflexivity]. }
    destruct quirk_missing_text; [| exact E]. now apply alt_here.
  - rewrite Q. cbn [app]. apply alt_skip.
    { apply bind_err. eapply rej_nx; [exact N |]. intros b Hb. rf. }
    apply alt_here. eapply (expect_go _ _ _ _ (bs "...")); [| reflexivity]. eapply value_go.
    unfold peek. rewrite (crlf_go e s He). reflexivity.
Qed.
Lemma resp_text_go t ct e s : G_resp_text t ct -> eol e -> p_resp_text (t ++ e ++ s) = ROk (e ++ s) ct.
Proof.
  intros G He. pose proof (eol_follow _ s He) as N. rewrite p_resp_text_eq.
  assert (N' : nx (no is_text_char) (e ++ s) = true) by (eapply nx_weak; [exact N | vm_compute; reflexivity]).
  destruct G as [t G B | t c u x G1 G2 | t u x G1 G2 G3].
  - destruct t as [| b t]; [now destruct G |]. cbn [app]. destruct (beq_spec b "["%byte) as [-> | _].
    { exfalso. now apply (B t). }
    unfold p_resp_plain. eapply pmap_go; [| reflexivity].
    apply (comp_text (b :: t) (b :: t)); [| exact N']. split; [exact G | reflexivity].
  - flat. unfold p_resp_coded. eapply bind_go; [now apply tag_go |].
    eapply bind_go; [apply alt_here; apply code_end_go; exact G1 |].
    eapply bind_go; [apply after_code_go; eassumption | reflexivity].
  - flat. unfold p_resp_coded. eapply bind_go; [now apply tag_go |].
    eapply bind_go; [| eapply bind_go; [apply after_code_go; eassumption | reflexivity]].
    apply alt_skip.
    + destruct (code_end_cases (t ++ bs "]" ++ u) e s He) as [E | (t' & w' & c & E & G)].
      * rewrite <- !app_assoc in E. exact E.
      * exfalso. exact (G3 t' w' c E G).
    + apply alt_here. unfold p_code_other. eapply pmap_go; [| reflexivity].
      unfold terminated. eapply bind_go; [apply take_while_read; [now apply code_chars | reflexivity] |].
      eapply bind_go; [now apply tag_go | reflexivity].
Qed.
Lemma sound_text_after_code : sound p_text_after_code G_text_after_code.
Proof.
  assert (S : sound (sp ;;; p_text) G_text_after_code).
  { intros i r a H. apply bind_inv in H as (r1 & u & E & H). apply reads_sp in E as ->.
    apply sound_text in H as (t & -> & G & ->).
    sfin ltac:(now apply g_tac_text). }
  unfold p_text_after_code. destruct quirk_missing_text eqn:Q; [| exact S].
  intros i r a H. apply alt_inv in H as [H | [_ H]]; [now apply S |].
  apply alt_inv in H as [H | [_ H]]; [| discriminate]. apply expect_inv in H as (b & H & E).
  apply value_inv in H as (u & H & ->). unfold peek in H. destruct (crlf i) eqn:C; try discriminate.
  inv H. exists []. split; [reflexivity |]. inv E. now apply g_tac_missing.
Qed.
Lemma sound_resp_text : sound p_resp_text G_resp_text.
Proof.
  intros i r a H. rewrite p_resp_text_eq in H. destruct i as [| b i]; [discriminate |].
  destruct (beq_spec b "["%byte) as [-> | Nb].
  - unfold p_resp_coded in H. apply bind_inv in H as (r1 & u & E1 & H). apply tag_inv in E1. inv E1.
    apply bind_inv in H as (r2 & c & E1 & H). apply bind_inv in H as (r3 & x & E2 & H). inv H.
    apply sound_text_after_code in E2 as (u' & -> & G2).
    apply alt_inv in E1 as [E1 | [R E1]].
    + apply code_end_inv in E1 as (t & -> & G). sfin ltac:(apply g_rt_code; [exact G | exact G2]).
    + apply alt_inv in E1 as [E1 | [_ E1]]; [| discriminate].
      unfold p_code_other in E1. apply pmap_inv in E1 as (t & E1 & ->). unfold terminated in E1.
      apply bind_inv in E1 as (r4 & t' & E1 & E3). apply bind_inv in E3 as (r5 & u0 & E3 & E4). inv E4.
      apply tag_inv in E3 as ->. unfold take_while in E1.
      destruct (span is_code_other_char r1) as [[b' r4] |] eqn:Es; [| discriminate]. inv E1.
      apply ParserFacts.span_some in Es as (-> & Hb & _).
      exists (bs "[" ++ t ++ bs "]" ++ u'). split; [now rewrite <- !app_assoc |].
      apply g_rt_other; [now apply code_chars | exact G2 |].
      intros t' v c E G. apply (code_end_go t' c (v ++ r)) in G.
      change (code_end (t ++ bs "]" ++ u' ++ r) = RErr) in R.
      assert (X : t ++ bs "]" ++ u' ++ r = t' ++ "]"%byte :: v ++ r).
      { rewrite !app_assoc, <- (app_assoc t), E, <- app_assoc. reflexivity. }
      rewrite <- X, R in G. discriminate G.
  - unfold p_resp_plain in H. apply pmap_inv in H as (t & H & ->).
    apply sound_text in H as (t' & E & G & ->). exists t'. split; [exact E |].
    apply g_rt_text; [exact G |]. intros v ->. injection E as -> _. now apply Nb.
Qed.

(** ** Greetings *)
Lemma sound_greeting : sound p_greeting G_greeting.
Proof.
  intros i r a H. unfold p_greeting in H. apply bind_inv in H as (r1 & [k [c t]] & E & H). inv H.
  unfold delimited in E. apply bind_inv in E as (r2 & u & E1 & E). apply tag_inv in E1 as ->.
  apply bind_inv in E as (r3 & x & E1 & E). apply bind_inv in E as (r4 & v & E2 & E). inv E.
  apply eol_inv in E2 as (e & -> & He).
  apply alt_inv in E1 as [E1 | [_ E1]]; [| apply alt_inv in E1 as [E1 | [_ E1]]; [| discriminate]].
  - unfold p_resp_cond_auth in E1. apply bind_inv in E1 as (r5 & k' & E1 & E2).
    apply bind_inv in E2 as (r6 & ct & E2 & E3). inv E3.
    apply sound_resp_text in E2 as (w & -> & G).
    apply alt_inv in E1 as [E1 | [_ E1]]; [| apply alt_inv in E1 as [E1 | [_ E1]]; [| discriminate]]; sd;
      sfin ltac:(apply g_greeting; [sword | exact G | exact He]).
  - unfold p_resp_cond_bye in E1. apply pmap_inv in E1 as (ct & E1 & [= -> <-]).
    apply bind_inv in E1 as (r5 & k' & E1 & E2). sd. apply sound_resp_text in E2 as (w & -> & G).
    sfin ltac:(apply g_greeting; [sword | exact G | exact He]).
Qed.
Lemma greeting_go t g s : G_greeting t g -> p_greeting (t ++ s) = ROk s g.
Proof.
  intros [k kind u c x e W G He]. flat. unfold p_greeting.
  eapply (bind_go _ _ _ s (kind, (c, x))); [| reflexivity]. unfold delimited.
  eapply bind_go; [now apply tag_go |]. cbn [app].
  eapply (bind_go _ _ _ (e ++ s) (kind, (c, x))); [| eapply bind_go; [now apply crlf_go | reflexivity]].
  words W.
  - apply alt_here. unfold p_resp_cond_auth. eapply bind_go; [ok |]. eapply bind_go; [apply resp_text_go; eassumption | reflexivity].
  - apply alt_here. unfold p_resp_cond_auth. eapply bind_go; [ok |]. eapply bind_go; [apply resp_text_go; eassumption | reflexivity].
  - apply alt_skip; [unfold p_resp_cond_auth; rej |]. apply alt_here. eapply pmap_go; [| reflexivity].
    unfold p_resp_cond_bye. eapply bind_go; [kwok |]. apply resp_text_go; eassumption.
Qed.

(** ** Responses *)
Lemma sound_cond_state : sound p_resp_cond_state G_status_body.
Proof.
  intros i r a H. unfold p_resp_cond_state in H. apply bind_inv in H as (r1 & k & E & H).
  apply bind_inv in H as (r2 & [c x] & E2 & H). inv H. apply sound_resp_text in E2 as (w & -> & G).
  apply alt_inv in E as [E | [_ E]]; [| apply alt_inv in E as [E | [_ E]]; [| apply alt_inv in E as [E | [_ E]]; [| discriminate]]]; sd;
    sfin ltac:(apply g_status_body; [sword | exact G]).
Qed.
Lemma cond_state_go t b e s : G_status_body t b -> eol e -> p_resp_cond_state (t ++ e ++ s) = ROk (e ++ s) b.
Proof.
  intros [k kind u c x W G] He. flat. unfold p_resp_cond_state.
  eapply (bind_go _ _ _ (u ++ e ++ s) kind); [words W; ok |].
  eapply bind_go; [apply resp_text_go; eassumption | reflexivity].
Qed.
Lemma sound_bye i r ct : p_resp_cond_bye i = ROk r ct ->
  exists k t, i = (k ++ t) ++ r /\ k ~ "BYE " /\ G_resp_text t ct.
Proof.
  unfold p_resp_cond_bye. intros H. apply bind_inv in H as (r5 & k' & E1 & E2).
  apply kw_inv in E1 as (k & -> & K).
  apply sound_resp_text in E2 as (w & -> & G). exists k, w. rewrite <- app_assoc. auto.
Qed.
Lemma bye_go k t ct e s : k ~ "BYE " -> G_resp_text t ct -> eol e ->
  p_resp_cond_bye (k ++ t ++ e ++ s) = ROk (e ++ s) ct.
Proof.
  intros K G He. unfold p_resp_cond_bye. eapply bind_go; [kwok |]. apply resp_text_go; eassumption.
Qed.
Lemma sound_enable_data : sound p_enable_data G_data.
Proof. ssplit. unfold p_enable_data in H. sd. sfin ltac:(apply g_data_enabled; eassumption). Qed.
Inductive G_untagged : lang response :=
| gu_data t d : G_data t d -> G_untagged t (RData d)
| gu_status t b : G_status_body t b -> G_untagged t (RStatus (StUntagged b))
| gu_bye k t c x : k ~ "BYE " -> G_resp_text t (c, x) -> G_untagged (k ++ t) (RStatus (StBye c x)).
Lemma sound_resp_data : sound p_resp_data G_untagged.
Proof.
  intros i r a H. unfold p_resp_data in H.
  apply alt_inv in H as [H | [_ H]].
  { apply pmap_inv in H as (b & H & ->). apply sound_cond_state in H as (t & -> & G). exists t; split; [reflexivity | exact (gu_status _ _ G)]. }
  apply alt_inv in H as [H | [_ H]].
  { apply pmap_inv in H as ([c x] & H & ->). apply sound_bye in H as (k & t & -> & K & G). exists (k ++ t); split; [reflexivity | exact (gu_bye k t c x K G)]. }
  apply alt_inv in H as [H | [_ H]].
  { apply pmap_inv in H as (b & H & ->). apply sound_mailbox_data in H as (t & -> & G). exists t; split; [reflexivity | exact (gu_data _ _ G)]. }
  apply alt_inv in H as [H | [_ H]].
  { apply pmap_inv in H as (b & H & ->). apply sound_message_data in H as (t & -> & G). exists t; split; [reflexivity | exact (gu_data _ _ G)]. }
  apply alt_inv in H as [H | [_ H]].
  { apply pmap_inv in H as (b & H & ->). apply sound_capabilities in H as (t & -> & G). exists t; split; [reflexivity | exact (gu_data _ _ (g_data_capability _ _ G))]. }
  apply alt_inv in H as [H | [_ H]].
  { apply pmap_inv in H as (b & H & ->). apply sound_enable_data in H as (t & -> & G). exists t; split; [reflexivity | exact (gu_data _ _ G)]. }
  apply alt_inv in H as [H | [_ H]]; [| discriminate].
  apply gate_inv in H as [Q H]. apply pmap_inv in H as (b & H & ->). unfold p_id in H. sd.
  sfin ltac:(apply gu_data, g_data_id; eassumption).
Qed.
Lemma until_crlf_inv i r t r' u : p_until_crlf i = ROk r t -> crlf r = ROk r' u ->
  exists e, i = t ++ e ++ r' /\ eol e.
Proof.
  intros H C. unfold p_until_crlf in H. apply eol_inv in C as (e & -> & He).
  destruct quirk_crlf_relaxed eqn:Q.
  - apply pmap_inv in H as (w & H & ->). unfold take_while in H.
    destruct (span _ i) as [[w' r1] |] eqn:E; [| discriminate]. inv H.
    apply ParserFacts.span_some in E as (-> & _ & c & y & E & Hc).
    assert (c = bLF) as -> by (destruct (beq_spec c bLF); [assumption | discriminate]).
    destruct He as [-> | [_ ->]]; [discriminate |].
    unfold strip_cr. destruct (rev w) as [| c l] eqn:R.
    + exists [bLF]. split; [reflexivity | now right].
    + destruct (beq_spec c bCR) as [-> | N].
      * exists [bCR; bLF]. split; [| now left].
        rewrite <- (rev_involutive w), R. cbn [rev]. now rewrite <- app_assoc.
      * exists [bLF]. split; [reflexivity | now right].
  - unfold take_until2 in H. destruct (find2 bCR bLF i) as [[w r1] |] eqn:E; [| discriminate]. inv H.
    exists e. split; [| exact He]. apply ParserFacts.find2_some in E. exact (proj1 E).
Qed.
Lemma resp_text_base64 t ct p : G_resp_text t ct -> base64 p t -> forallb is_text_char t = true.
Proof.
  intros G D. apply base64_spec in D. inversion G; subst.
  - apply quoted_ok_spec. apply H.
  - change (bs "[" ++ t0 ++ bs "]" ++ u) with ("["%byte :: t0 ++ bs "]" ++ u) in D. now rewrite b64_bracket in D.
  - change (bs "[" ++ t0 ++ bs "]" ++ u) with ("["%byte :: t0 ++ bs "]" ++ u) in D. now rewrite b64_bracket in D.
Qed.
Lemma sound_continue i r c : p_continue_req i = ROk r c -> exists t, i = t ++ r /\ G_response t (RContinue c).
Proof.
  intros H. unfold p_continue_req in H. apply expect_inv in H as (x & H & E).
  apply bind_inv in H as (r1 & u & E1 & H). apply tag_inv in E1 as ->.
  apply bind_inv in H as (r2 & y & E1 & H). apply bind_inv in H as (r3 & v & E2 & H). inv H.
  apply alt_inv in E1 as [E1 | [R E1]].
  - apply pmap_inv in E1 as (d & E1 & ->). inv E. apply map_res_inv in E1 as (t & E1 & D).
    destruct (until_crlf_inv _ _ _ _ _ E1 E2) as (e & -> & He).
    exists (bs "+ " ++ t ++ e). split; [now rewrite <- !app_assoc |].
    apply g_rsp_base64; [now apply base64_spec | exact He].
  - apply alt_inv in E1 as [E1 | [_ E1]]; [| discriminate].
    apply pmap_inv in E1 as ([c' x'] & E1 & ->). apply sound_resp_text in E1 as (t & -> & G).
    apply eol_inv in E2 as (e & -> & He).
    assert (X : c = CRBasic c' x').
    { unfold basic_of in E. destruct c'; [now inv E |]. destruct (_ || _); [discriminate | now inv E]. }
    subst c. exists (bs "+ " ++ t ++ e). split; [now rewrite <- !app_assoc |].
    apply g_rsp_continue; [exact G | | exact He].
    intros p D. apply base64_spec in D.
    pose proof (resp_text_base64 _ _ _ G (proj2 (base64_spec _ _) D)) as T.
    destruct (p_until_crlf_text t e r T He) as (r' & E1). unfold pmap, map_res, bind in R.
    rewrite E1, D in R. discriminate R.
Qed.

Lemma until_eol t e s : forallb is_text_char t = true -> eol e ->
  exists r, p_until_crlf (t ++ e ++ s) = ROk r t /\ crlf r = ROk s tt.
Proof.
  intros Ht [-> | [Q ->]]; [now apply until_crlf_exact |].
  destruct (p_until_crlf_text t [bLF] s Ht (or_intror (conj Q eq_refl))) as (r & E). exists r. split; [exact E |].
  unfold p_until_crlf in E. rewrite Q in E. apply pmap_inv in E as (w & E & _). unfold take_while in E.
  rewrite (span_read (fun b => negb (beq b bLF)) t) in E.
  - inv E. unfold crlf. rewrite Q. reflexivity.
  - apply (forallb_impl is_text_char); [| exact Ht]. intros b Hb. now destruct (text_no_crlf _ Hb) as [_ ->].
  - reflexivity.
Qed.
Lemma until_bracket_eol y e s : eol e -> exists a r, p_until_crlf ("["%byte :: y ++ e ++ s) = ROk r ("["%byte :: a).
Proof.
  intros [-> | [Q ->]]; [apply until_bracket |]. unfold p_until_crlf. rewrite Q.
  destruct (RtResp.span_some (fun b => negb (beq b bLF)) y s eq_refl) as (a & r & E).
  unfold pmap, bind, take_while. cbn [span]. change (negb (beq "[" bLF)) with true. cbv iota.
  change (y ++ [bLF] ++ s) with (y ++ bLF :: s). rewrite E.
  unfold ret, strip_cr. destruct (rev ("["%byte :: a)) as [|c l] eqn:R; [eauto |].
  destruct (beq c bCR) eqn:Ec; [| eauto]. apply beq_eq in Ec. subst c.
  assert (E2 : "["%byte :: a = rev l ++ [bCR]) by (rewrite <- (rev_involutive ("["%byte :: a)), R; reflexivity).
  destruct (rev l) as [|z l']; [discriminate |]. injection E2 as <- _. eauto.
Qed.
Lemma basic_of_go t c x : G_resp_text t (c, x) -> (forall p, ~ base64 p t) -> basic_of (c, x) = Some (CRBasic c x).
Proof.
  intros G D. inversion G; subst; try reflexivity. unfold basic_of.
  assert (E : starts_with (bs "[") x = false).
  { destruct (starts_with (bs "[") x) eqn:E; [| reflexivity]. exfalso.
    apply starts_spec in E as (r & E). exact (H3 r E). }
  rewrite E. destruct (b64_decode x) eqn:B; [| reflexivity]. exfalso. apply (D b). now apply base64_spec.
Qed.
Lemma continue_go t c x e s : G_resp_text t (c, x) -> (forall p, ~ base64 p t) -> eol e ->
  p_continue_req ("+"%byte :: " "%byte :: t ++ e ++ s) = ROk s (CRBasic c x).
Proof.
  intros G D He. unfold p_continue_req. eapply (expect_go _ _ _ _ (inr (c, x))); [| exact (basic_of_go t c x G D)].
  eapply bind_go; [now apply tag_go |]. eapply (bind_go _ _ _ (e ++ s) (inr (c, x))).
  2: { eapply bind_go; [now apply crlf_go | reflexivity]. }
  apply alt_skip; [| apply alt_here; eapply pmap_go; [apply resp_text_go; eassumption | reflexivity]].
  assert (R : exists r w, p_until_crlf (t ++ e ++ s) = ROk r w /\ b64_decode w = None).
  { inversion G; subst.
    - destruct (p_until_crlf_text x e s) as (r & E); [| exact He |].
      + apply quoted_ok_spec. match goal with H : some_of _ _ |- _ => apply H end.
      + exists r, x. split; [exact E |]. destruct (b64_decode x) eqn:B; [| reflexivity].
        exfalso. apply (D b). now apply base64_spec.
    - flat. destruct (until_bracket_eol (t0 ++ "]"%byte :: u) e s He) as (a & r & E). rewrite <- !app_assoc in E; cbn [app] in E.
      exists r, ("["%byte :: a). split; [exact E | apply b64_bracket].
    - flat. destruct (until_bracket_eol (t0 ++ "]"%byte :: u) e s He) as (a & r & E). rewrite <- !app_assoc in E; cbn [app] in E.
      exists r, ("["%byte :: a). split; [exact E | apply b64_bracket]. }
  destruct R as (r & w & E & B). unfold pmap. apply bind_err. eapply map_res_err; eassumption.
Qed.
Lemma continue_base64_go t p e s : G_base64 t p -> eol e ->
  p_continue_req ("+"%byte :: " "%byte :: t ++ e ++ s) = ROk s (CRBase64 p).
Proof.
  intros G He. unfold p_continue_req. apply base64_spec in G. pose proof (b64_decode_encode _ _ G) as X.
  destruct (until_eol t e s) as (r & E & C); [rewrite X; apply b64_text | exact He |].
  eapply (expect_go _ _ _ _ (inl p)); [| reflexivity].
  eapply bind_go; [now apply tag_go |]. eapply (bind_go _ _ _ r (inl p)).
  - apply alt_here. eapply pmap_go; [| reflexivity]. eapply map_res_go; eassumption.
  - eapply bind_go; [exact C | reflexivity].
Qed.
Lemma sound_untagged i r a : p_response_data i = ROk r a ->
  exists t e, i = (bs "* " ++ t ++ e) ++ r /\ G_untagged t a /\ eol e.
Proof.
  intros E. change (delimited (tg "* ") p_resp_data crlf i = ROk r a) in E.
  unfold delimited in E. apply bind_inv in E as (r2 & u & E1 & E). apply tag_inv in E1 as ->.
  apply bind_inv in E as (r3 & x & E1 & E). apply bind_inv in E as (r4 & v & E2 & E). inv E.
  apply eol_inv in E2 as (e & -> & He). apply sound_resp_data in E1 as (t & -> & G).
  exists t, e. now rewrite <- !app_assoc.
Qed.
Lemma sound_response : sound p_response G_response.
Proof.
  intros i r a H. unfold p_response in H.
  apply alt_inv in H as [H | [_ H]].
  { apply gate_inv in H as [Q H]. apply pmap_inv in H as (c & H & ->). unfold p_empty_continue_req in H.
    apply expect_inv in H as (x & H & E). apply value_inv in H as (u & H & ->).
    apply bind_inv in H as (r1 & v & E1 & H). apply tag_inv in E1 as ->.
    apply eol_inv in H as (e & -> & He). inv E.
    exists (bs "+" ++ e). split; [now rewrite <- app_assoc |]. now apply g_rsp_empty. }
  apply alt_inv in H as [H | [_ H]].
  { apply pmap_inv in H as (c & H & ->). now apply sound_continue. }
  apply alt_inv in H as [H | [_ H]].
  { apply sound_untagged in H as (t & e & -> & G & He). exists (bs "* " ++ t ++ e). split; [reflexivity |].
    destruct G; [now apply g_rsp_data | now apply g_rsp_untagged |].
    rewrite <- app_assoc. now apply g_rsp_bye. }
  apply alt_inv in H as [H | [_ H]]; [| discriminate].
  apply pmap_inv in H as (c & H & ->). unfold p_response_done in H. apply alt_inv in H as [H | [_ H]].
  - unfold p_response_tagged in H. apply bind_inv in H as (r1 & tg0 & E1 & H).
    apply bind_inv in H as (r2 & u & E2 & H). apply reads_sp in E2 as ->.
    apply bind_inv in H as (r3 & b & E2 & H). apply bind_inv in H as (r4 & v & E3 & H). inv H.
    apply sound_tag in E1 as (tt & -> & Gt). apply sound_cond_state in E2 as (t & -> & G).
    apply eol_inv in E3 as (e & -> & He).
    exists (tt ++ bs " " ++ t ++ e). split; [now rewrite <- !app_assoc |]. now apply g_rsp_tagged.
  - apply alt_inv in H as [H | [_ H]]; [| discriminate]. unfold p_response_fatal in H.
    apply bind_inv in H as (r1 & [cd x] & E & H). inv H.
    unfold delimited in E. apply bind_inv in E as (r2 & u & E1 & E). apply tag_inv in E1 as ->.
    apply bind_inv in E as (r3 & y & E1 & E). apply bind_inv in E as (r4 & v & E2 & E). inv E.
    apply eol_inv in E2 as (e & -> & He). apply sound_bye in E1 as (k & t & -> & K & G).
    exists (bs "* " ++ k ++ t ++ e). split; [now rewrite <- !app_assoc |]. now apply g_rsp_bye.
Qed.
Lemma untagged_go t a e s : G_untagged t a -> eol e ->
  p_response_data ("*"%byte :: " "%byte :: t ++ e ++ s) = ROk s a.
Proof.
  intros G He. change (delimited (tg "* ") p_resp_data crlf ("*"%byte :: " "%byte :: t ++ e ++ s) = ROk s a).
  unfold delimited. eapply bind_go; [now apply tag_go |]. cbn [app].
  eapply (bind_go _ _ _ (e ++ s) a); [| eapply bind_go; [now apply crlf_go | reflexivity]].
  destruct G as [t d G | t b G | k t c x K G].
  - apply data_go; [exact G | now apply eol_follow].
  - unfold p_resp_data. apply alt_here. eapply pmap_go; [apply cond_state_go; eassumption | reflexivity].
  - unfold p_resp_data. flat. apply alt_skip; [unfold p_resp_cond_state; rej |]. apply alt_here.
    eapply pmap_go; [apply bye_go; eassumption | reflexivity].
Qed.
Lemma untagged_skip t a e s : G_untagged t a -> eol e ->
  p_response ("*"%byte :: " "%byte :: t ++ e ++ s) = ROk s a.
Proof.
  intros G He. unfold p_response. apply alt_skip; [apply gate_err; reflexivity |].
  apply alt_skip; [reflexivity |]. apply alt_here. now apply untagged_go.
Qed.
Lemma response_go t a s : G_response t a -> p_response (t ++ s) = ROk s a.
Proof.
  intros [u c x e G D He | u p e G He | e Q He | u d e G He | u b e G He | tt tag u b e Gt G He | k u c x e K G He].
  - flat. unfold p_response. apply alt_skip.
    { apply gate_err. unfold pmap, p_empty_continue_req. apply bind_err. unfold crlf. now destruct quirk_crlf_relaxed. }
    apply alt_here. eapply pmap_go; [apply continue_go; eassumption | reflexivity].
  - flat. unfold p_response. apply alt_skip.
    { apply gate_err. unfold pmap, p_empty_continue_req. apply bind_err. unfold crlf. now destruct quirk_crlf_relaxed. }
    apply alt_here. eapply pmap_go; [apply continue_base64_go; eassumption | reflexivity].
  - flat. unfold p_response. apply alt_here. apply gate_go; [exact Q |]. eapply pmap_go; [| reflexivity].
    unfold p_empty_continue_req. eapply (expect_go _ _ _ _ (None, bs "...")); [| reflexivity].
    eapply value_go. eapply bind_go; [now apply tag_go | now apply crlf_go].
  - flat. apply untagged_skip; [now constructor | exact He].
  - flat. apply untagged_skip; [now constructor | exact He].
  - flat. unfold p_response.
    assert (B : nx is_tag_char (tt ++ " "%byte :: u ++ e ++ s) = true).
    { apply nx_app. destruct Gt as [[N T] _]. destruct tt as [| b' tt]; [easy |]. cbn. apply is_tag_char_spec. now inversion T. }
    apply alt_skip; [apply gate_err; eapply rej_nx; [exact B |]; intros b' Hb; unfold p_empty_continue_req; rf |].
    apply alt_skip; [eapply rej_nx; [exact B |]; intros b' Hb; unfold p_continue_req; rf |].
    apply alt_skip; [eapply rej_nx; [exact B |]; intros b' Hb; unfold p_response_data; rf |].
    apply alt_here. eapply pmap_go; [| reflexivity]. unfold p_response_done. apply alt_here.
    unfold p_response_tagged. eapply bind_go; [apply comp_tag; [exact Gt | reflexivity] |].
    eapply bind_go; [apply sp_go |]. eapply bind_go; [apply cond_state_go; eassumption |].
    eapply bind_go; [now apply crlf_go | reflexivity].
  - change (bs "* " ++ k ++ u ++ e) with (bs "* " ++ (k ++ u ++ e)). flat.
    rewrite (app_assoc k). apply untagged_skip; [now constructor | exact He].
Qed.
End RespGrammar.
