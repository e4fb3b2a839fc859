(** Messages that end in a free text: greetings and responses (C57). *)

From Verif Require Import Bytes BytesFacts Dec Features Nom Types Utf8 Conv Base64 ValueSpec ValueFacts Grammar ParseCore ParseBody ParseCmd ParseResp
  ParserFacts OkCore RtCore SoundTac SoundCore RespGrammar Fragmentizer FragSpec FragFacts StreamSpec StreamFacts SyncSpec SyncFacts SyncParse SyncCore SyncTidy.
Open Scope nat_scope.

Definition dots : bytes := bs "...".
(** The text that was read, and the text of the message *)
Definition reads (w t : bytes) : Prop := w = t \/ w = [] /\ t = dots.
Definition loose {A} (txt : A -> bytes) (p : parser A) : Prop := forall i,
  match p i with
  | ROk r a => exists c w, i = c ++ w ++ r /\ calm c /\ forallb is_text_char w = true /\ reads w (txt a)
  | RInc | RFail (FLit _ _ _) => unfinished i
  | _ => True
  end.
Lemma loose_bind {A B} txt (p : parser A) (f : A -> parser B) : tidy p -> (forall a, loose txt (f a)) -> loose txt (bind p f).
Proof.
  intros H G i. specialize (H i). unfold bind. destruct (p i) as [r a | | | e |]; auto.
  destruct H as (t & -> & T). specialize (G a r). destruct (f a r) as [r2 b | | | [] |]; auto.
  - destruct G as (c & w & -> & C & W & R). exists (t ++ c), w. rewrite app_assoc. now split; [| split; [apply calm_app |]].
  - now apply calm_unfinished.
  - now apply calm_unfinished.
Qed.
Lemma loose_then {A B} txt txt' (p : parser A) (f : A -> parser B) :
  loose txt p -> (forall a i, f a i = RPanic \/ exists b, f a i = ROk i b /\ txt' b = txt a) -> loose txt' (bind p f).
Proof.
  intros H G i. specialize (H i). unfold bind. destruct (p i) as [r a | | | e |]; auto.
  destruct (G a r) as [-> | (b & -> & E)]; [exact I |]. now rewrite E.
Qed.
Lemma loose_pmap {A B} (txt : A -> bytes) txt' (f : A -> B) p : loose txt p -> (forall a, txt' (f a) = txt a) -> loose txt' (pmap f p).
Proof. intros H E. apply (loose_then txt); [exact H |]. intros a i. right. exists (f a). now split. Qed.
Lemma loose_alt_cons {A} (txt : A -> bytes) p q l : loose txt p -> loose txt (alt (q :: l)) -> loose txt (alt (p :: q :: l)).
Proof. intros H G i. specialize (H i). specialize (G i). cbn [alt] in *. unfold orp. now destruct (p i). Qed.

(** With the line ending, it is a complete message if and only if the text does not announce a
    literal. Otherwise the announced literal must follow. *)
Definition closing {A} (Q : A -> Prop) (p : parser A) : Prop := forall i,
  match p i with
  | ROk r a => exists d, i = d ++ r /\ (Q a -> message d) /\ (~ Q a -> unfinished d)
  | RInc | RFail (FLit _ _ _) => unfinished i
  | _ => True
  end.
Lemma closing_seg {A} (Q : A -> Prop) (p : parser A) : seg message p -> (forall i r a, p i = ROk r a -> Q a) -> closing Q p.
Proof.
  intros H K i. specialize (H i). specialize (K i). destruct (p i) as [r a | | | e |]; auto.
  destruct H as (d & -> & M). exists d. split; [reflexivity |]. split; [now intros _ |]. intros N. exfalso. apply N. eauto.
Qed.
Lemma closing_alt_cons {A} (Q : A -> Prop) p q l : closing Q p -> closing Q (alt (q :: l)) -> closing Q (alt (p :: q :: l)).
Proof. intros H G i. specialize (H i). specialize (G i). cbn [alt] in *. unfold orp. now destruct (p i). Qed.
Lemma closing_pmap {A B} (Q : A -> Prop) (Q' : B -> Prop) (f : A -> B) p : closing Q p -> (forall a, Q' (f a) <-> Q a) -> closing Q' (pmap f p).
Proof.
  intros H E i. specialize (H i). unfold pmap, bind, ret. destruct (p i) as [r a | | | e |]; auto.
  destruct H as (d & -> & H1 & H2). exists d. rewrite E. auto.
Qed.
Lemma closing_gate {A} (Q : A -> Prop) b p : (b = true -> closing Q p) -> closing Q (gate b p).
Proof. destruct b; cbn; [auto |]. intros _ i. exact I. Qed.

Lemma text_free w : forallb is_text_char w = true -> free w.
Proof. apply free_of. apply byte_impl. vm_compute. reflexivity. Qed.
Lemma text_no_cr w : forallb is_text_char w = true -> ~ In bCR w.
Proof. intros H K. rewrite forallb_forall in H. specialize (H _ K). discriminate. Qed.

Section Resp.
Context {F : features}.
Hypothesis no_utf8 : ext_utf8 = false.

Lemma announces_eol w e a : forallb is_text_char w = true -> eol e -> announces (w ++ e) a <-> announces (w ++ [bCR; bLF]) a.
Proof.
  intros T [-> | [_ ->]]; [reflexivity |]. rewrite announces_crlf. split.
  - intros (pre & d & l & E & L & N & D & V & M). destruct L as [-> | ->].
    + exists pre, d. split; [| now repeat split]. rewrite !app_assoc in E. apply app_inj_tail in E as [-> _].
      unfold ann_tail. rewrite <- !app_assoc. reflexivity.
    + exfalso. apply (text_no_cr w T). change [bCR; bLF] with ([bCR] ++ [bLF]) in E. rewrite !app_assoc in E.
      apply app_inj_tail in E as [-> _]. apply in_or_app. right. now left.
  - intros (u & d & -> & N & D & V & M). exists u, d, [bLF]. split; [| split; [now left | now repeat split]].
    unfold ann_tail. rewrite <- !app_assoc. cbn [app]. rewrite <- !app_assoc. reflexivity.
Qed.
Lemma text_line w e : forallb is_text_char w = true -> eol e -> is_line (w ++ e).
Proof.
  intros T E. destruct E as [-> | [_ ->]].
  - exists (w ++ [bCR]). split; [now rewrite <- app_assoc |]. apply free_app; [now apply text_free |]. intros [K | []]; discriminate.
  - exists w. split; [reflexivity | now apply text_free].
Qed.
Lemma quiet_dots : quiet dots.
Proof. intros a H. apply announces_crlf in H as (u & d & E & _). destruct u as [| ? [| ? [| ? []]]]; discriminate. Qed.
Lemma reads_quiet w t : reads w t -> (quiet w <-> quiet t).
Proof. intros [-> | [-> ->]]; [reflexivity |]. split; intros _; [apply quiet_dots | apply quiet_nil]. Qed.
Lemma text_message w e : forallb is_text_char w = true -> eol e -> quiet w -> message (w ++ e).
Proof. intros T E Q. apply message_last; [now apply text_line |]. intros a K. apply (Q a). now apply (announces_eol w e). Qed.
Lemma text_unfinished w e : forallb is_text_char w = true -> eol e -> ~ quiet w -> unfinished (w ++ e).
Proof.
  intros T E Q. destruct (text_line w e T E) as (t & Et & Nt).
  pose proof (lf_result_spec t) as [H _]. rewrite <- Et in H. destruct (fst _) as [a |]; cbn in H.
  - rewrite <- (app_nil_r (w ++ e)). apply (header_unfinished _ a); [now apply text_line | exact H | now right].
  - exfalso. apply Q. intros a K. apply (H a). now apply (announces_eol w e).
Qed.
Lemma closing_crlf {A B} (txt : A -> bytes) (Q : B -> Prop) (p : parser A) (f : A -> B) : loose txt p ->
  (forall a, Q (f a) <-> quiet (txt a)) -> closing Q (x <- p ;; crlf ;;; ret (f x)).
Proof.
  intros H E i. specialize (H i). unfold bind, ret. destruct (p i) as [r a | | | e |]; auto.
  destruct H as (c & w & -> & C & W & R). destruct (crlf r) as [r2 u | | | e |] eqn:X; auto.
  - apply crlf_inv in X as (e & -> & X). exists (c ++ w ++ e). split; [now rewrite <- !app_assoc |].
    rewrite E, <- (reads_quiet _ _ R). split; intros K.
    + apply calm_message; [exact C |]. now apply text_message.
    + apply calm_unfinished; [exact C |]. now apply text_unfinished.
  - apply within_crlf in X. apply calm_unfinished; [exact C |]. apply no_lf_unfinished. apply free_app; [now apply text_free | exact X].
  - now apply crlf_no_fail in X.
Qed.
Lemma closing_bind {A B} (Q : B -> Prop) (p : parser A) (f : A -> parser B) : tidy p -> (forall a, closing Q (f a)) -> closing Q (bind p f).
Proof.
  intros H G i. specialize (H i). unfold bind. destruct (p i) as [r a | | | e |]; auto.
  destruct H as (t & -> & T). specialize (G a r). destruct (f a r) as [r2 b | | | [] |]; auto.
  - destruct G as (d & -> & G1 & G2). exists (t ++ d). split; [now rewrite app_assoc |]. split; intros K.
    + apply calm_message; auto.
    + apply calm_unfinished; auto.
  - now apply calm_unfinished.
  - now apply calm_unfinished.
Qed.

(** *** The texts *)
Lemma loose_text : loose (fun t => t) p_text.
Proof.
  intros i. unfold p_text, validated, expect, bind, ret. unfold take_while1.
  destruct (span is_text_char i) as [[[| b a] r] |] eqn:E; [exact I | |].
  - apply span_some in E as (-> & E & _). unfold str_of. destruct (_ && _)%bool; [| exact I].
    exists [], (b :: a). repeat split; [apply calm_nil | exact E | now left].
  - apply span_none in E. apply no_lf_unfinished. now apply text_free.
Qed.
Lemma tidy_sp : tidy sp. Proof. apply tidy_char. reflexivity. Qed.
Lemma loose_text_after_code : loose (fun t => t) p_text_after_code.
Proof.
  assert (H : loose (fun t => t) (sp ;;; p_text)) by (apply loose_bind; [apply tidy_sp | intros _; apply loose_text]).
  unfold p_text_after_code. destruct quirk_missing_text; [| exact H].
  apply loose_alt_cons; [exact H |]. intros i. cbn [alt]. unfold expect, value, peek, bind, ret.
  destruct (crlf i) as [r u | | | e |] eqn:E; auto.
  - change (str_of text_ok (bs "...")) with (Some dots). exists [], []. repeat split; [apply calm_nil |]. now right.
  - apply no_lf_unfinished. now apply within_crlf.
  - now apply crlf_no_fail in E.
Qed.
Lemma loose_resp_text : loose snd p_resp_text.
Proof.
  intros i. unfold p_resp_text.
  assert (H1 : loose snd (tg "[" ;;; c <- alt [terminated p_resp_text_code (tg "]"); p_code_other] ;;
     t <- p_text_after_code ;; ret (Some c, t))).
  { apply loose_bind; [apply tidy_tag; reflexivity |]. intros _. apply loose_bind.
    - apply seg_alt_cons; [| now apply tidy_code_other]. apply tidy_terminated; [now apply tidy_resp_text_code | apply tidy_tag; reflexivity].
    - intros c. apply (loose_then (fun t => t)); [apply loose_text_after_code |]. intros t i0. right. eexists. now split. }
  assert (H2 : loose snd (pmap (fun t => (@None code, t)) p_text)) by (apply (loose_pmap (fun t => t)); [apply loose_text | reflexivity]).
  assert (H3 : tidy (opt (tg "["))) by (apply tidy_opt, tidy_tag; reflexivity).
  specialize (H1 i). specialize (H2 i). specialize (H3 i). destruct (opt (tg "[") i) as [r [u |] | | | e |]; auto.
Qed.
Lemma loose_resp_cond_auth : loose (fun x => snd (snd x)) p_resp_cond_auth.
Proof.
  unfold p_resp_cond_auth. apply loose_bind.
  - apply seg_alt_cons; [| change (tidy (value GKPreAuth (kw "PREAUTH ")))]; apply seg_value, tidy_tag_no_case; reflexivity.
  - intros k. apply (loose_then snd); [apply loose_resp_text |]. intros t i. right. eexists. now split.
Qed.
Lemma loose_resp_cond_bye : loose snd p_resp_cond_bye.
Proof. apply loose_bind; [apply tidy_tag_no_case; reflexivity | intros _; apply loose_resp_text]. Qed.
Lemma loose_resp_cond_state : loose sb_text p_resp_cond_state.
Proof.
  unfold p_resp_cond_state. apply loose_bind.
  - apply seg_alt_cons; [| apply seg_alt_cons; [| change (tidy (value SKBad (kw "BAD ")))]]; apply seg_value, tidy_tag_no_case; reflexivity.
  - intros k. apply (loose_then snd); [apply loose_resp_text |]. intros [c t] i. right. eexists. now split.
Qed.
Lemma closing_ext {A} (Q : A -> Prop) p q : (forall i, p i = q i) -> closing Q p -> closing Q q.
Proof. intros E H i. rewrite <- E. apply H. Qed.
Lemma closing_greeting : closing quiet_greeting p_greeting.
Proof.
  apply (closing_ext _ (tg "* " ;;; x <- alt [p_resp_cond_auth; pmap (fun ct => (GKBye, ct)) p_resp_cond_bye] ;; crlf ;;;
    ret (mkGreeting (fst x) (fst (snd x)) (snd (snd x))))).
  { intros i. unfold p_greeting, delimited, bind, ret. destruct (tg "* " i); auto.
    destruct (alt _ rest) as [r [k [c t]] | | | e |]; auto. now destruct (crlf r). }
  apply closing_bind; [apply tidy_tag; reflexivity |]. intros _.
  apply (closing_crlf (fun x => snd (snd x))); [| reflexivity].
  apply loose_alt_cons; [apply loose_resp_cond_auth |]. apply (loose_pmap snd); [apply loose_resp_cond_bye | reflexivity].
Qed.

(** *** Responses *)
Definition closing_at {A} (Q : A -> Prop) (p : parser A) (i : bytes) : Prop :=
  match p i with
  | ROk r a => exists d, i = d ++ r /\ (Q a -> message d) /\ (~ Q a -> unfinished d)
  | RInc | RFail (FLit _ _ _) => unfinished i
  | _ => True
  end.
Lemma closing_at_cons {A} (Q : A -> Prop) p q l i :
  closing_at Q p i -> closing_at Q (alt (q :: l)) i -> closing_at Q (alt (p :: q :: l)) i.
Proof. unfold closing_at. cbn [alt]. unfold orp. now destruct (p i). Qed.

Lemma closing_empty : closing quiet_response (pmap RContinue p_empty_continue_req).
Proof.
  apply closing_seg.
  - apply seg_pmap, seg_expect, seg_value. apply seg_bind_message; [apply tidy_tag; reflexivity | intros _; apply seg_crlf].
  - intros i r a H. unfold pmap, p_empty_continue_req, expect, value, bind, ret in H.
    destruct (tg "+" i); try discriminate. destruct (crlf rest); try discriminate.
    change (basic_of (None, bs "...")) with (Some (CRBasic None dots)) in H. injection H as <- <-. apply quiet_dots.
Qed.
Lemma base64_text p t : base64 p t -> forallb plainb t = true.
Proof.
  assert (V : forall c v, b64_value c v -> plainb c = true).
  { intros c v H. apply b64_value_spec in H. destruct c; try discriminate; reflexivity. }
  induction 1; cbn; repeat match goal with H : b64_value _ _ |- _ => apply V in H; rewrite H end; auto.
Qed.
(** Without the quirk the end of a continuation request is searched for before anything else. *)
Lemma find2_crlf x : find2 bCR bLF x = None -> ~ has_crlf x.
Proof.
  intros H (a & b & ->). revert H. induction a as [| c a IH]; intros H; [discriminate |].
  cbn [app find2] in H. destruct a as [| c' a].
  - cbn [app] in *. destruct (_ && _)%bool; [discriminate |]. cbn in H. discriminate.
  - cbn [app] in *. destruct (_ && _)%bool; [discriminate |].
    apply IH. destruct (find2 bCR bLF _) as [[] |] eqn:E; [discriminate | reflexivity].
Qed.
Lemma crlf_find2 x : ~ has_crlf x -> find2 bCR bLF x = None.
Proof.
  intros H. destruct (find2 bCR bLF x) as [[a r] |] eqn:E; [| reflexivity]. apply find2_some in E as (-> & r' & ->).
  exfalso. apply H. exists a, r'. reflexivity.
Qed.
Definition searchable (i : bytes) : Prop := quirk_crlf_relaxed = true \/ forall x, i = bs "+ " ++ x -> has_crlf x.
Lemma until_within i x r t d : i = bs "+ " ++ x -> p_until_crlf x = ROk r t -> b64_decode t = Some d -> exists w, x = w ++ r /\ free w.
Proof.
  intros -> H D. unfold p_until_crlf in H. destruct quirk_crlf_relaxed.
  - unfold pmap, bind, ret, take_while in H. destruct (span _ x) as [[w r1] |] eqn:E; [| discriminate].
    injection H as <- <-. apply span_some in E as (-> & E & _). exists w. split; [reflexivity |].
    now apply on_line_lf.
  - unfold take_until2 in H. destruct (find2 bCR bLF x) as [[w r1] |] eqn:E; [| discriminate]. injection H as <- <-.
    apply find2_some in E as (-> & _). exists w. split; [reflexivity |].
    apply on_line_lf, plain_on_line. apply decode_base64 in D. now apply base64_text in D.
Qed.
Lemma until_incomplete i x : searchable i -> i = bs "+ " ++ x -> p_until_crlf x = RInc -> free x.
Proof.
  intros [Q | S] -> H; unfold p_until_crlf in H.
  - rewrite Q in H. unfold pmap, bind, ret, take_while in H. destruct (span _ x) as [[w r1] |] eqn:E; [discriminate |].
    apply span_none in E. now apply on_line_lf.
  - destruct quirk_crlf_relaxed.
    + unfold pmap, bind, ret, take_while in H. destruct (span _ x) as [[w r1] |] eqn:E; [discriminate |].
      apply span_none in E. now apply on_line_lf.
    + unfold take_until2 in H. destruct (find2 bCR bLF x) as [[w r1] |] eqn:E; [discriminate |].
      apply find2_crlf in E. exfalso. apply E. now apply S.
Qed.
Lemma until_no_fail x f : p_until_crlf x = RFail f -> False.
Proof.
  unfold p_until_crlf. destruct quirk_crlf_relaxed; unfold pmap, bind, ret, take_while, take_until2.
  - now destruct (span _ x) as [[] |].
  - now destruct (find2 _ _ x) as [[] |].
Qed.
Lemma plus_calm : calm (bs "+ "). Proof. apply calm_plains. reflexivity. Qed.
Definition cont_text : parser (bytes + (option code * bytes)) :=
  alt [pmap inl (map_res p_until_crlf b64_decode); pmap inr p_resp_text].
Lemma cont_text_cases i x : searchable i -> i = bs "+ " ++ x ->
  match cont_text x with
  | ROk r (inl d) => exists t, p_until_crlf x = ROk r t /\ b64_decode t = Some d
  | ROk r (inr ct) => exists c w, x = c ++ w ++ r /\ calm c /\ forallb is_text_char w = true /\ reads w (snd ct)
  | RInc | RFail (FLit _ _ _) => unfinished x
  | _ => True
  end.
Proof.
  intros S E. unfold cont_text. cbn [alt]. unfold orp.
  destruct (pmap inl (map_res p_until_crlf b64_decode) x) as [r [d | ct] | | | e |] eqn:E1.
  - apply pmap_inv in E1 as (d' & E1 & [= <-]). apply map_res_inv in E1 as (t & E1 & D). eauto.
  - apply pmap_inv in E1 as (d' & E1 & [=]).
  - unfold pmap, map_res, bind, ret, perr in E1. destruct (p_until_crlf x) as [r t | | | e |] eqn:E2; try discriminate.
    + destruct (b64_decode t); discriminate.
    + apply no_lf_unfinished. now apply (until_incomplete i).
  - pose proof loose_resp_text as L. specialize (L x). unfold pmap, bind, ret.
    destruct (p_resp_text x) as [r [c t] | | | [] |]; exact L.
  - unfold pmap, map_res, bind, ret, perr in E1. destruct (p_until_crlf x) as [r t | | | f' |] eqn:E2; try discriminate.
    + destruct (b64_decode t); discriminate.
    + now apply until_no_fail in E2.
  - exact I.
Qed.
Lemma closing_continue i : searchable i -> closing_at quiet_response (pmap RContinue p_continue_req) i.
Proof.
  intros S. unfold closing_at, p_continue_req. fold cont_text.
  pose proof (tidy_tag (bs "+ ") eq_refl i) as H0. unfold pmap, expect, bind, ret.
  destruct (tg "+ " i) as [x u | | | e |] eqn:E0; auto. apply tag_inv in E0. clear H0.
  pose proof (cont_text_cases i x S E0) as H. destruct (cont_text x) as [r [d | [c t]] | | | [] |]; auto;
    try (rewrite E0; apply calm_unfinished; [apply plus_calm | exact H]).
  - destruct H as (t & E1 & D). destruct (crlf r) as [r2 v | | | e |] eqn:E2; auto.
    + destruct (until_crlf_inv _ _ _ _ _ E1 E2) as (e & -> & He). exists (bs "+ " ++ t ++ e).
      split; [rewrite E0; now rewrite <- !app_assoc |]. split; [intros _ | intros N; now exfalso; apply N].
      apply calm_message; [apply plus_calm |]. apply calm_message; [apply calm_plains; apply decode_base64 in D; now apply base64_text in D |].
      apply (text_message []); [reflexivity | exact He | apply quiet_nil].
    + rewrite E0. apply calm_unfinished; [apply plus_calm |]. destruct (until_within _ _ _ _ _ E0 E1 D) as (w & -> & W).
      apply no_lf_unfinished, free_app; [exact W | now apply within_crlf].
    + now apply crlf_no_fail in E2.
  - destruct H as (k & w & Ex & C & W & R). destruct (crlf r) as [r2 v | | | e |] eqn:E2; auto.
    + apply crlf_inv in E2 as (e & -> & He).
      assert (G : forall y, basic_of (c, t) = Some y -> y = CRBasic c t).
      { intros y. unfold basic_of. destruct c; [now intros [= <-] |]. destruct (_ || _)%bool; [discriminate | now intros [= <-]]. }
      destruct (basic_of (c, t)) as [y |]; [| exact I]. rewrite (G _ eq_refl). exists (bs "+ " ++ k ++ w ++ e).
      split; [rewrite E0, Ex; now rewrite <- !app_assoc |]. cbn [quiet_response snd] in *.
      rewrite <- (reads_quiet _ _ R). split; intros K.
      * apply calm_message; [apply plus_calm |]. apply calm_message; [exact C |]. now apply text_message.
      * apply calm_unfinished; [apply plus_calm |]. apply calm_unfinished; [exact C |]. now apply text_unfinished.
    + rewrite E0, Ex. apply calm_unfinished; [apply plus_calm |]. apply calm_unfinished; [exact C |].
      apply no_lf_unfinished, free_app; [now apply text_free | now apply within_crlf].
    + now apply crlf_no_fail in E2.
Qed.
Lemma closing_data {A} (p : parser A) (f : A -> response) : tidy p -> (forall a, quiet_response (f a)) ->
  closing quiet_response (x <- pmap f p ;; crlf ;;; ret x).
Proof.
  intros H K. apply closing_seg.
  - apply seg_bind_message; [now apply seg_pmap |]. intros x. apply (seg_pmap message (fun _ => x)), seg_crlf.
  - intros i r a E. unfold pmap, bind, ret in E. destruct (p i) as [r1 b | | | e |]; try discriminate.
    destruct (crlf r1); try discriminate. injection E as <- <-. apply K.
Qed.
Lemma closing_text {A} txt (p : parser A) (f : A -> response) : loose txt p -> (forall a, quiet_response (f a) <-> quiet (txt a)) ->
  closing quiet_response (x <- pmap f p ;; crlf ;;; ret x).
Proof.
  intros H K. apply (closing_ext _ (x <- p ;; crlf ;;; ret (f x))); [| now apply (closing_crlf txt)].
  intros i. unfold pmap, bind, ret. destruct (p i); auto.
Qed.
Lemma closing_choice {A} (Q : A -> Prop) (p q : parser A) (l : list (parser A)) (f : A -> parser A) :
  closing Q (x <- p ;; f x) -> closing Q (x <- alt (q :: l) ;; f x) -> closing Q (x <- alt (p :: q :: l) ;; f x).
Proof.
  intros H G i. specialize (H i). specialize (G i). unfold bind in *. cbn [alt] in *. unfold orp. now destruct (p i).
Qed.
Lemma closing_response_data : closing quiet_response p_response_data.
Proof.
  unfold p_response_data, delimited. apply closing_bind; [apply tidy_tag; reflexivity |]. intros _.
  repeat apply closing_choice.
  - now apply (closing_text sb_text); [apply loose_resp_cond_state |].
  - now apply (closing_text snd); [apply loose_resp_cond_bye |].
  - apply closing_data; [now apply tidy_mailbox_data | now intros].
  - apply closing_data; [now apply tidy_message_data | now intros].
  - apply closing_data; [now apply tidy_capability_data | now intros].
  - apply closing_data; [now apply tidy_enable_data | now intros].
  - cbn [alt]. destruct ext_id; [| intros i; exact I]. apply closing_data; [now apply tidy_id | now intros].
Qed.
Lemma closing_response_done : closing quiet_response (pmap RStatus p_response_done).
Proof.
  apply (closing_pmap (fun s => quiet_response (RStatus s))); [| reflexivity]. unfold p_response_done.
  apply closing_alt_cons.
  - unfold p_response_tagged. apply closing_bind; [now apply tidy_tag_imap |]. intros t.
    apply closing_bind; [apply tidy_sp |]. intros _. now apply (closing_crlf sb_text); [apply loose_resp_cond_state |].
  - change (alt [p_response_fatal]) with p_response_fatal.
    apply (closing_ext _ (tg "* " ;;; x <- p_resp_cond_bye ;; crlf ;;; ret (StBye (fst x) (snd x)))).
    { intros i. unfold p_response_fatal, delimited, bind, ret. destruct (tg "* " i); auto.
      destruct (p_resp_cond_bye rest) as [r [c t] | | | e |]; auto. now destruct (crlf r). }
    apply closing_bind; [apply tidy_tag; reflexivity |]. intros _. now apply (closing_crlf snd); [apply loose_resp_cond_bye |].
Qed.
Lemma closing_response i : searchable i -> closing_at quiet_response p_response i.
Proof.
  intros S. unfold p_response. repeat apply closing_at_cons.
  - unfold gate. destruct quirk_empty_continue_req; [apply closing_empty | exact I].
  - now apply closing_continue.
  - apply closing_response_data.
  - apply closing_response_done.
Qed.
Lemma searching_incomplete x : quirk_crlf_relaxed = false -> ~ has_crlf x -> p_response (bs "+ " ++ x) = RInc.
Proof.
  intros Q N. unfold p_response. cbn [alt]. unfold orp at 1.
  assert (E : gate quirk_empty_continue_req (pmap RContinue p_empty_continue_req) (bs "+ " ++ x) = RErr).
  { destruct quirk_empty_continue_req; [| reflexivity]. cbn [gate].
    unfold pmap, p_empty_continue_req, expect, value, bind, crlf. rewrite Q. reflexivity. }
  rewrite E. unfold orp at 1. unfold pmap at 1, p_continue_req, expect, bind, p_until_crlf. rewrite Q.
  change (bs "+ " ++ x) with ("+"%byte :: " "%byte :: x). cbn [tag bs]. cbn.
  unfold orp, pmap, map_res, bind, take_until2. now rewrite crlf_find2.
Qed.

(** *** Commands and client lines *)
Lemma seg_command : seg message p_command.
Proof.
  unfold p_command. apply seg_bind_message.
  - apply tidy_terminated; [now apply tidy_tag_imap | apply tidy_sp].
  - intros t i. assert (H : seg message (pmap (mkCommand t) p_command_body)).
    { apply seg_pmap. unfold p_command_body, terminated. apply seg_bind_message.
      - apply seg_alt_cons; [now apply tidy_command_any |]. apply seg_alt_cons; [now apply tidy_command_auth |].
        apply seg_alt_cons; [now apply tidy_command_nonauth | now apply tidy_command_select].
      - intros x. apply (seg_pmap message (fun _ => x)), seg_crlf. }
    specialize (H i). destruct (pmap _ _ i) as [r a | | | [] |]; exact H.
Qed.
End Resp.
Section Lines.
Context {F : features}.
Lemma seg_authenticate_data : seg message p_authenticate_data.
Proof.
  unfold p_authenticate_data. apply seg_alt_cons.
  - apply seg_pmap. unfold terminated. apply seg_bind_message; [| intros x; apply (seg_pmap message (fun _ => x)), seg_crlf].
    unfold p_base64. apply seg_map_res, seg_recognize. apply seg_bind; [apply tidy_take_while; vm_compute; reflexivity |]. intros _.
    apply tidy_opt, seg_alt_cons; apply tidy_tag; reflexivity.
  - cbn [alt]. apply seg_bind_message; [apply tidy_tag; reflexivity |]. intros _. apply (seg_pmap message (fun _ => ADCancel)), seg_crlf.
Qed.
Lemma seg_idle_done : seg message p_idle_done.
Proof.
  unfold p_idle_done. apply seg_bind_message; [apply tidy_tag_no_case; reflexivity |]. intros _. apply (seg_pmap message (fun _ => tt)), seg_crlf.
Qed.
End Lines.
