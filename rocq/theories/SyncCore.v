(** What the token parsers consume, and when they ask for more input (C57). *)

From Verif Require Import Bytes BytesFacts Dec Features Nom Types Utf8 Conv Base64 Grammar ParseCore ParserFacts OkCore SoundCore
  QuotedFacts Fragmentizer FragSpec FragFacts SyncSpec SyncFacts SyncParse.
Open Scope nat_scope.

(** It asks for more only if there is no LF, and consumes none. *)
Definition within {A} (p : parser A) : Prop := forall i,
  match p i with
  | ROk r _ => exists t, i = t ++ r /\ free t
  | RInc => free i
  | RFail (FLit _ _ _) => False
  | _ => True
  end.
Lemma within_bind {A B} (p : parser A) (f : A -> parser B) : within p -> (forall a, within (f a)) -> within (bind p f).
Proof.
  intros H G i. specialize (H i). unfold bind. destruct (p i) as [r a | | | e |]; auto.
  destruct H as (t & -> & T). specialize (G a r). destruct (f a r) as [r2 b | | | e |]; auto.
  - destruct G as (t2 & -> & T2). exists (t ++ t2). split; [now rewrite app_assoc | now apply free_app].
  - now apply free_app.
Qed.
Lemma within_seg {A} (p : parser A) : within p -> seg free p.
Proof.
  intros H i. specialize (H i). destruct (p i) as [r a | | | [] |]; auto; [now apply no_lf_unfinished | contradiction].
Qed.
Lemma within_tag t : forallb on_line t = true -> within (tag t).
Proof.
  intros P i. revert i P. induction t as [| c t IH]; intros i P; cbn.
  - exists []. split; [reflexivity | now intros []].
  - cbn in P. apply andb_true_iff in P as [P1 P2]. destruct i as [| x i]; [now intros [] |].
    destruct (beq_spec x c) as [-> |]; [| exact I]. specialize (IH i P2).
    assert (P : free [c]) by (apply on_line_lf; cbn; now rewrite P1).
    destruct (tag t i) as [r a | | | [] |]; auto.
    + destruct IH as (u & -> & U). exists (c :: u). split; [reflexivity |]. now apply (free_app [c]).
    + now apply (free_app [c]).
Qed.
Lemma within_take_while1 f : forallb (fun b => negb (f b) || on_line b) all_bytes = true -> within (take_while1 f).
Proof.
  intros H. assert (G : forall b, f b = true -> on_line b = true).
  { intros b E. pose proof (byte_forall _ H b) as X. cbv beta in X. now rewrite E in X. }
  intros i. unfold take_while1. destruct (span f i) as [[[| b a] r] |] eqn:E; [exact I | |].
  - apply span_some in E as (-> & E & _). exists (b :: a). split; [reflexivity | now apply (free_of f)].
  - apply span_none in E. now apply (free_of f).
Qed.
Lemma within_expect {A B} (f : A -> option B) p : within p -> within (expect p f).
Proof. intros H i. specialize (H i). unfold expect, bind, ret. destruct (p i); auto. now destruct (f a). Qed.
Lemma within_map_res {A B} (f : A -> option B) p : within p -> within (map_res p f).
Proof. intros H i. specialize (H i). unfold map_res, bind, ret, perr. destruct (p i); auto. now destruct (f a). Qed.
Lemma within_ret {A} (a : A) : within (ret a).
Proof. intros i. exists []. split; [reflexivity | now intros []]. Qed.
Lemma within_opt {A} (p : parser A) : within p -> within (opt p).
Proof. intros H i. specialize (H i). unfold opt. destruct (p i); auto. exists []. split; [reflexivity | now intros []]. Qed.
Lemma within_sat f : (forall b, f b = true -> on_line b = true) -> within (sat f).
Proof.
  intros H [| x i]; cbn; [now intros [] |]. destruct (f x) eqn:E; [| exact I]. exists [x]. split; [reflexivity |].
  apply on_line_lf. cbn. now rewrite H.
Qed.
Lemma within_pmap {A B} (f : A -> B) p : within p -> within (pmap f p).
Proof. intros H i. specialize (H i). unfold pmap, bind, ret. now destruct (p i). Qed.

(** *** [escaped] *)
Section Escaped.
Variables (normal escapable : byte -> bool).
Hypothesis normal_line : forall b, normal b = true -> on_line b = true.
Hypothesis escapable_line : forall b, escapable b = true -> on_line b = true.
Lemma within_esc1 n : forall i, length i <= n -> match esc1 normal escapable bBS i with
  | ROk r _ => exists t, i = t ++ r /\ free t
  | RInc => free i
  | RFail (FLit _ _ _) => False
  | _ => True
  end.
Proof.
  induction n as [| n IH]; intros [| x i] L; cbn [length] in L; [now intros [] | lia | now intros [] |].
  cbn [esc1]. destruct (normal x) eqn:N.
  - assert (X : free [x]) by (apply on_line_lf; cbn; now rewrite normal_line).
    specialize (IH i ltac:(lia)). destruct (esc1 _ _ _ i) as [r a | | | e |]; auto.
    + destruct IH as (t & -> & T). exists (x :: t). split; [reflexivity |]. now apply (free_app [x]).
    + now apply (free_app [x]).
  - destruct (beq x bBS) eqn:E; [| exists []; split; [reflexivity | now intros []]].
    apply beq_eq in E as ->. destruct i as [| y i]; [intros [K | []]; discriminate |].
    destruct (escapable y) eqn:Ey; [| exact I].
    assert (X : free [bBS; y]) by (apply on_line_lf; cbn; now rewrite escapable_line).
    cbn [length] in L. specialize (IH i ltac:(lia)). destruct (esc1 _ _ _ i) as [r a | | | e |]; auto.
    + destruct IH as (t & -> & T). exists (bBS :: y :: t). split; [reflexivity |]. now apply (free_app [bBS; y]).
    + now apply (free_app [bBS; y]).
Qed.
End Escaped.
Lemma within_escaped : within (escaped is_any_text_char_except_quoted_specials bBS is_quoted_specials).
Proof.
  intros i. unfold escaped. rewrite escaped_esc1 by (reflexivity || lia).
  apply (within_esc1 _ _) with (n := length i); [| | lia]; apply byte_impl; vm_compute; reflexivity.
Qed.

(** Strings of bytes that satisfy a decidable condition *)
Ltac bytes_ok := first [vm_compute; reflexivity | apply byte_forall; vm_compute; reflexivity].

Section Core.
Context {F : features}.
Lemma tidy_digits max : tidy (p_digits max).
Proof. apply seg_map_res, seg_expect, tidy_take_while1. vm_compute. reflexivity. Qed.
Lemma within_digits max : within (p_digits max).
Proof. apply within_map_res, within_expect, within_take_while1. vm_compute. reflexivity. Qed.
Lemma tidy_quoted : tidy p_quoted.
Proof.
  unfold p_quoted. apply seg_bind; [apply tidy_char; reflexivity |]. intros _. apply (tidy_closed_char _ (fun s _ => _)).
  - apply within_seg, within_expect, within_escaped.
  - reflexivity.
  - intros s _. apply seg_expect, tidy_ret.
Qed.
Lemma within_crlf i : crlf i = RInc -> free i.
Proof.
  unfold crlf. destruct quirk_crlf_relaxed; intros E.
  - unfold bind, opt, char, sat in E. destruct i as [| x i]; [now intros [] |]. cbn in E.
    destruct (beq x bCR) eqn:X; [apply beq_eq in X as -> |]; cbn in E.
    + destruct i as [| y i]; [intros [K | []]; discriminate |]. cbn in E. destruct (beq y bLF); discriminate.
    + destruct (beq x bLF); discriminate.
  - destruct i as [| x [| y i]]; cbn in E.
    + now intros [].
    + destruct (beq x bCR) eqn:X; [apply beq_eq in X as -> | discriminate]. intros [K | []]; discriminate.
    + destruct (beq x bCR); [| discriminate]. destruct (beq y bLF); discriminate.
Qed.
Lemma crlf_no_fail i f : crlf i = RFail f -> False.
Proof.
  unfold crlf. destruct quirk_crlf_relaxed; intros E.
  - unfold bind, opt, char, sat in E. destruct i as [| x i]; [discriminate |]. cbn in E.
    destruct (beq x bCR); cbn in E.
    + destruct i as [| y i]; [discriminate |]. cbn in E. destruct (beq y bLF); discriminate.
    + destruct (beq x bLF); discriminate.
  - destruct i as [| x [| y i]]; cbn in E; try discriminate.
    + destruct (beq x bCR); discriminate.
    + destruct (beq x bCR); [| discriminate]. destruct (beq y bLF); discriminate.
Qed.
Lemma header_inc open i : forallb on_line open = true ->
  match p_lit_header open i with RInc => free i | RFail (FLit _ _ _) => False | _ => True end.
Proof.
  intros O. unfold p_lit_header.
  assert (W : within (tag open ;;; n <- p_number ;; m <- p_lit_mode ;; tg "}" ;;; ret (n, m))).
  { apply within_bind; [now apply within_tag |]. intros _. apply within_bind; [apply within_digits |]. intros n.
    apply within_bind; [apply within_pmap, within_opt, within_sat; intros b E; apply beq_eq in E as ->; reflexivity |].
    intros m. apply within_bind; [now apply within_tag |]. intros _. apply within_ret. }
  specialize (W i). unfold bind, ret in *.
  destruct (tag open i) as [r1 u1 | | | e |]; auto. destruct (p_number r1) as [r2 n | | | e |]; auto.
  destruct (p_lit_mode r2) as [r3 m | | | e |]; auto. destruct (tg "}" r3) as [r4 u2 | | | e |]; auto.
  destruct W as (t & -> & T). destruct (crlf r4) as [r5 u | | | e |] eqn:E; auto.
  - apply within_crlf in E. now apply free_app.
  - now apply crlf_no_fail in E.
Qed.
Lemma tidy_literal_body (open : bytes) (pre : bytes) {A} (f : bytes -> lit_mode -> parser A) : open = pre ++ bs "{" ->
  forallb plainb pre = true -> (forall d m, tidy (f d m)) ->
  tidy (' (n, m) <- p_lit_header open ;; p_lit_found n m ;;; d <- take n ;; f d m).
Proof.
  intros O P G i. pose proof (header_inc open i) as H. unfold bind at 1.
  assert (OL : forallb on_line open = true) by (rewrite O, forallb_app, plain_on_line by exact P; reflexivity).
  specialize (H OL). destruct (p_lit_header open i) as [r [n m] | | | [] |] eqn:E; auto;
    [| now apply no_lf_unfinished | contradiction].
  apply p_lit_header_inv in E as (d & e & -> & N & D & -> & L & X).
  destruct (header_line d m e N D L X) as [HL HA].
  rewrite O. replace ((pre ++ bs "{") ++ d ++ plus_of m ++ bs "}" ++ e ++ r)
    with (pre ++ (bs "{" ++ d ++ plus_of m ++ bs "}" ++ e) ++ r) by now rewrite <- !app_assoc.
  remember (bs "{" ++ d ++ plus_of m ++ bs "}" ++ e) as h.
  assert (U : forall s, (lenN s < dval d)%N \/ s = [] -> unfinished (pre ++ h ++ s)).
  { intros s S. apply calm_unfinished; [now apply calm_plains |]. now apply (header_unfinished h (mkAnn m (dval d))). }
  unfold bind. destruct r as [| b r]; cbn [p_lit_found]; [apply U; now right |].
  unfold take. destruct (N.leb_spec (dval d) (lenN (b :: r))) as [K | K]; [| apply U; now left].
  set (n := N.to_nat (dval d)). specialize (G (firstn n (b :: r)) m (skipn n (b :: r))).
  assert (C : calm (pre ++ h ++ firstn n (b :: r))).
  { apply calm_app; [now apply calm_plains |].
    replace (h ++ firstn n (b :: r)) with (h ++ firstn n (b :: r) ++ []) by now rewrite app_nil_r.
    apply (calm_literal h _ (mkAnn m (dval d))); auto; [| apply calm_nil].
    cbn. unfold lenN in *. rewrite firstn_length. lia. }
  replace (pre ++ h ++ b :: r) with ((pre ++ h ++ firstn n (b :: r)) ++ skipn n (b :: r))
    by now rewrite <- !app_assoc, firstn_skipn.
  destruct (f _ m _) as [r2 z | | | [] |]; auto; try now apply calm_unfinished.
  destruct G as (u & -> & V). eexists. split; [now rewrite app_assoc | now apply calm_app].
Qed.
Lemma tidy_literal : tidy p_literal.
Proof.
  apply (tidy_literal_body (bs "{") [] (fun d m => if literal_ok d then ret (mkLit d m) else pfail)); [reflexivity .. |].
  intros d m. destruct (literal_ok d); [apply tidy_ret | apply seg_pfail].
Qed.
Lemma tidy_literal8 : tidy p_literal8.
Proof.
  apply (tidy_literal_body (bs "~{") (bs "~") (fun d m => ret (mkLit8 d m))); [reflexivity .. |].
  intros d m. apply tidy_ret.
Qed.
Lemma within_quoted_char : within p_quoted_char.
Proof.
  assert (W : forall f, forallb (fun b => negb (f b) || on_line b) all_bytes = true -> within (take_while_m_n 1 1 f)).
  { intros f H. assert (G : forall b, f b = true -> on_line b = true).
    { intros b E. pose proof (byte_forall _ H b) as X. cbv beta in X. now rewrite E in X. }
    intros i. unfold take_while_m_n. destruct i as [| b i]; [now intros [] |]. cbn [span]. destruct (f b) eqn:E.
    - assert (X : exists t, b :: i = t ++ i /\ free t).
      { exists [b]. split; [reflexivity |]. apply on_line_lf. cbn. now rewrite G. }
      destruct (span f i) as [[a r] |]; [| exact X]. cbn [length Nat.leb].
      destruct a as [| c a]; cbn [length Nat.leb]; exact X.
    - exact I. }
  unfold p_quoted_char. apply within_expect. intros i. cbn [alt]. unfold orp.
  pose proof (within_expect one_byte _ (W is_any_text_char_except_quoted_specials ltac:(vm_compute; reflexivity)) i) as H1.
  destruct (expect _ _ i); auto. clear H1.
  refine (within_expect one_byte (tg "\" ;;; take_while_m_n 1 1 is_quoted_specials) _ i).
  apply within_bind; [now apply within_tag |]. intros _. apply W. vm_compute. reflexivity.
Qed.
End Core.
