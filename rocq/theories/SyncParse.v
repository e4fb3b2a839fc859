(** What parsers consume, and when they ask for more input (C57). *)

From Verif Require Import Bytes BytesFacts Dec Features Nom Types Utf8 Conv Base64 Grammar ParseCore ParserFacts OkCore SoundCore
  Fragmentizer FragSpec FragFacts SyncSpec SyncFacts.
Open Scope nat_scope.

(** What the parser consumes satisfies [K]; it asks for more only if the input does not begin with
    a complete message. *)
Definition seg {A} (K : bytes -> Prop) (p : parser A) : Prop := forall i,
  match p i with
  | ROk r _ => exists t, i = t ++ r /\ K t
  | RInc | RFail (FLit _ _ _) => unfinished i
  | _ => True
  end.
Definition free (t : bytes) : Prop := ~ In bLF t.
Notation tidy := (seg calm).

Lemma free_app a b : free a -> free b -> free (a ++ b).
Proof. intros H K L. apply in_app_or in L as [L | L]; contradiction. Qed.
Lemma free_of f w : (forall b, f b = true -> on_line b = true) -> forallb f w = true -> free w.
Proof. intros H K. apply on_line_lf. revert K. now apply forallb_impl. Qed.

Section Seg.
Context {A B : Type} (K : bytes -> Prop).
Lemma seg_bind p (f : A -> parser B) : tidy p -> (forall a, tidy (f a) ) -> tidy (bind p f).
Proof.
  intros H G i. specialize (H i). unfold bind. destruct (p i) as [r a | | | e |]; auto.
  destruct H as (t & -> & T). specialize (G a r). destruct (f a r) as [r2 b | | | [] |]; auto.
  - destruct G as (t2 & -> & T2). exists (t ++ t2). split; [now rewrite app_assoc | now apply calm_app].
  - now apply calm_unfinished.
  - now apply calm_unfinished.
Qed.
Lemma seg_bind_message p (f : A -> parser B) : tidy p -> (forall a, seg message (f a)) -> seg message (bind p f).
Proof.
  intros H G i. specialize (H i). unfold bind. destruct (p i) as [r a | | | e |]; auto.
  destruct H as (t & -> & T). specialize (G a r). destruct (f a r) as [r2 b | | | [] |]; auto.
  - destruct G as (t2 & -> & T2). exists (t ++ t2). split; [now rewrite app_assoc | now apply calm_message].
  - now apply calm_unfinished.
  - now apply calm_unfinished.
Qed.
Lemma seg_pmap (f : A -> B) p : seg K p -> seg K (pmap f p).
Proof. intros H i. specialize (H i). unfold pmap, bind, ret. now destruct (p i). Qed.
Lemma seg_value (b : B) (p : parser A) : seg K p -> seg K (value b p).
Proof. intros H i. specialize (H i). unfold value, bind, ret. now destruct (p i). Qed.
Lemma seg_map_res (f : A -> option B) p : seg K p -> seg K (map_res p f).
Proof. intros H i. specialize (H i). unfold map_res, bind, ret, perr. destruct (p i); auto. now destruct (f a). Qed.
Lemma seg_expect (f : A -> option B) p : seg K p -> seg K (expect p f).
Proof. intros H i. specialize (H i). unfold expect, bind, ret. destruct (p i); auto. now destruct (f a). Qed.
Lemma seg_orp (p q : parser A) : seg K p -> seg K q -> seg K (orp p q).
Proof. intros H G i. specialize (H i). specialize (G i). unfold orp. now destruct (p i). Qed.
Lemma seg_perr : seg K (@perr A). Proof. intros i. exact I. Qed.
Lemma seg_pfail : seg K (@pfail A). Proof. intros i. exact I. Qed.
Lemma seg_panic : seg K (fun _ => @RPanic A). Proof. intros i. exact I. Qed.
Lemma seg_alt_cons (p q : parser A) l : seg K p -> seg K (alt (q :: l)) -> seg K (alt (p :: q :: l)).
Proof. intros H G. now apply seg_orp. Qed.
Lemma seg_gate b (p : parser A) : (b = true -> seg K p) -> seg K (gate b p).
Proof. intros H. destruct b; cbn; [now apply H | apply seg_perr]. Qed.
Lemma seg_terminated_nil (p : parser A) : seg K p -> seg K (terminated p (ret tt)).
Proof. intros H i. specialize (H i). unfold terminated, bind, ret. now destruct (p i). Qed.
Lemma seg_weaken (K' : bytes -> Prop) (p : parser A) : (forall t, K t -> K' t) -> seg K p -> seg K' p.
Proof. intros W H i. specialize (H i). destruct (p i) as [r a | | | e |]; auto. destruct H as (t & E & T). eauto. Qed.
Lemma seg_recognize (p : parser A) : seg K p -> seg K (recognize p).
Proof. intros H i. specialize (H i). unfold recognize. now destruct (p i). Qed.
End Seg.
Lemma tidy_ret {A} (a : A) : tidy (ret a).
Proof. intros i. exists []. split; [reflexivity | apply calm_nil]. Qed.
Lemma tidy_opt {A} (p : parser A) : tidy p -> tidy (opt p).
Proof.
  intros H i. specialize (H i). unfold opt. destruct (p i); auto. exists []. split; [reflexivity | apply calm_nil].
Qed.
Lemma tidy_peek {A} (p : parser A) : tidy p -> tidy (peek p).
Proof.
  intros H i. specialize (H i). unfold peek. destruct (p i); auto. exists []. split; [reflexivity | apply calm_nil].
Qed.

(** ** Tokens *)
Lemma plainb_lower b : plainb b = plainb (lower b). Proof. now destruct b. Qed.
Lemma tidy_tag t : forallb plainb t = true -> tidy (tag t).
Proof.
  intros P i. revert i P. induction t as [| c t IH]; intros i P; cbn.
  - exists []. split; [reflexivity | apply calm_nil].
  - cbn in P. apply andb_true_iff in P as [P1 P2]. destruct i as [| x i]; [apply no_lf_unfinished; now intros [] |].
    destruct (beq_spec x c) as [-> |]; [| exact I]. specialize (IH i P2).
    destruct (tag t i) as [r a | | | [] |]; auto.
    + destruct IH as (u & -> & U). exists (c :: u). split; [reflexivity | now apply calm_plain].
    + apply (calm_unfinished [c]); [now apply calm_plains; cbn; rewrite P1 | exact IH].
    + apply (calm_unfinished [c]); [now apply calm_plains; cbn; rewrite P1 | exact IH].
Qed.
Lemma tidy_tag_no_case t : forallb plainb t = true -> tidy (tag_no_case t).
Proof.
  intros P i. revert i P. induction t as [| c t IH]; intros i P; cbn.
  - exists []. split; [reflexivity | apply calm_nil].
  - cbn in P. apply andb_true_iff in P as [P1 P2]. destruct i as [| x i]; [apply no_lf_unfinished; now intros [] |].
    destruct (beq_spec (lower x) (lower c)) as [E |]; [| exact I]. specialize (IH i P2).
    assert (Px : plainb x = true) by now rewrite plainb_lower, E, <- plainb_lower.
    destruct (tag_no_case t i) as [r a | | | [] |]; auto.
    + destruct IH as (u & -> & U). exists (x :: u). split; [reflexivity | now apply calm_plain].
    + apply (calm_unfinished [x]); [now apply calm_plains; cbn; rewrite Px | exact IH].
    + apply (calm_unfinished [x]); [now apply calm_plains; cbn; rewrite Px | exact IH].
Qed.
Lemma tidy_sat f : (forall b, f b = true -> plainb b = true) -> tidy (sat f).
Proof.
  intros H [| x i]; cbn; [apply no_lf_unfinished; now intros [] |].
  destruct (f x) eqn:E; [| exact I]. exists [x]. split; [reflexivity |]. apply calm_plain; [auto | apply calm_nil].
Qed.
Lemma tidy_char c : plainb c = true -> tidy (char c).
Proof. intros H. apply tidy_sat. intros x E. cbv beta in E. revert E. destruct (beq_spec x c) as [-> |]; [now intros _ | discriminate]. Qed.
Lemma span_free f i : (forall b, f b = true -> on_line b = true) -> span f i = None -> unfinished i.
Proof. intros H S. apply no_lf_unfinished. apply span_none in S. now apply (free_of f). Qed.
Lemma seg_take_while (K : bytes -> Prop) f : (forall b, f b = true -> on_line b = true) ->
  (forall w, forallb f w = true -> K w) -> seg K (take_while f).
Proof.
  intros H W i. unfold take_while. destruct (span f i) as [[a r] |] eqn:E.
  - apply span_some in E as (-> & E & _). eauto.
  - now apply (span_free f).
Qed.
Lemma seg_take_while1 (K : bytes -> Prop) f : (forall b, f b = true -> on_line b = true) ->
  (forall w, forallb f w = true -> K w) -> seg K (take_while1 f).
Proof.
  intros H W i. unfold take_while1. destruct (span f i) as [[[| b a] r] |] eqn:E; [exact I | |].
  - apply span_some in E as (-> & E & _). eauto.
  - now apply (span_free f).
Qed.
Lemma forallb_firstn {X} (f : X -> bool) n l : forallb f l = true -> forallb f (firstn n l) = true.
Proof. revert l. induction n; intros [| x l]; cbn; auto. intros H. apply andb_true_iff in H as [-> H]. now apply IHn. Qed.
Lemma seg_take_while_m_n (K : bytes -> Prop) m n f : (forall b, f b = true -> on_line b = true) ->
  (forall w, forallb f w = true -> K w) -> seg K (take_while_m_n m n f).
Proof.
  intros H W i. unfold take_while_m_n. destruct (span f i) as [[a r] |] eqn:E.
  - apply span_some in E as (-> & E & _). destruct (Nat.leb m (length a)); [| exact I].
    destruct (Nat.leb (length a) n) eqn:L.
    + exists a. split; [| auto]. now rewrite skipn_app, skipn_all, Nat.sub_diag.
    + exists (firstn n (a ++ r)). split; [now rewrite firstn_skipn |]. apply W.
      apply Nat.leb_gt in L. rewrite firstn_app. replace (n - length a) with 0 by lia. cbn. rewrite app_nil_r.
      now apply forallb_firstn.
  - destruct (Nat.leb n (length i)).
    + exists (firstn n i). split; [now rewrite firstn_skipn |]. apply W, forallb_firstn. now apply span_none.
    + now apply (span_free f).
Qed.
Lemma plain_line b : plainb b = true -> on_line b = true.
Proof. unfold plainb. intros H. now apply andb_true_iff in H as [H _]; apply andb_true_iff in H as [H _]. Qed.
Lemma tidy_take_while f : forallb (fun b => negb (f b) || plainb b) all_bytes = true -> tidy (take_while f).
Proof.
  intros H. assert (G : forall b, f b = true -> plainb b = true).
  { intros b E. pose proof (byte_forall _ H b) as X. cbv beta in X. now rewrite E in X. }
  apply seg_take_while; [auto using plain_line |]. intros w E. apply calm_plains. revert E. now apply forallb_impl.
Qed.
Lemma tidy_take_while1 f : forallb (fun b => negb (f b) || plainb b) all_bytes = true -> tidy (take_while1 f).
Proof.
  intros H. assert (G : forall b, f b = true -> plainb b = true).
  { intros b E. pose proof (byte_forall _ H b) as X. cbv beta in X. now rewrite E in X. }
  apply seg_take_while1; [auto using plain_line |]. intros w E. apply calm_plains. revert E. now apply forallb_impl.
Qed.
Lemma tidy_take_while_m_n m n f : forallb (fun b => negb (f b) || plainb b) all_bytes = true -> tidy (take_while_m_n m n f).
Proof.
  intros H. assert (G : forall b, f b = true -> plainb b = true).
  { intros b E. pose proof (byte_forall _ H b) as X. cbv beta in X. now rewrite E in X. }
  apply seg_take_while_m_n; [auto using plain_line |]. intros w E. apply calm_plains. revert E. now apply forallb_impl.
Qed.

(** ** Loops *)
Section Loops.
Context {A B : Type}.
Lemma tidy_many0_f n (p : parser A) : tidy p -> tidy (many0_f n p).
Proof.
  intros H. induction n as [| n IH]; intros i; cbn [many0_f]; [exact I |]. pose proof (H i) as Hi.
  destruct (p i) as [r a | | | e |]; auto.
  - destruct (Nat.ltb (length r) (length i)); [| exact I]. destruct Hi as (t & -> & T). specialize (IH r).
    destruct (many0_f n p r) as [r2 l | | | [] |]; auto.
    + destruct IH as (u & -> & U). exists (t ++ u). split; [now rewrite app_assoc | now apply calm_app].
    + now apply calm_unfinished.
    + now apply calm_unfinished.
  - exists []. split; [reflexivity | apply calm_nil].
Qed.
Lemma tidy_many0 (p : parser A) : tidy p -> tidy (many0 p).
Proof. intros H i. now apply (tidy_many0_f (S (length i))). Qed.
Lemma tidy_many1 (p : parser A) : tidy p -> tidy (many1 p).
Proof. intros H. apply seg_bind; [exact H |]. intros a. apply seg_bind; [now apply tidy_many0 |]. intros l. apply tidy_ret. Qed.
Lemma tidy_many_m m (p : parser A) : tidy p -> tidy (many_m m p).
Proof.
  intros H. induction m as [| m IH]; [now apply tidy_many0 |]. intros i. cbn [many_m]. pose proof (H i) as Hi.
  destruct (p i) as [r a | | | e |]; auto.
  destruct (Nat.ltb (length r) (length i)); [| exact I]. destruct Hi as (t & -> & T). specialize (IH r).
  destruct (many_m m p r) as [r2 l | | | [] |]; auto.
  - destruct IH as (u & -> & U). exists (t ++ u). split; [now rewrite app_assoc | now apply calm_app].
  - now apply calm_unfinished.
  - now apply calm_unfinished.
Qed.
Lemma tidy_sep_loop_f n (s : parser B) (p : parser A) : tidy s -> tidy p -> tidy (sep_loop_f n s p).
Proof.
  intros S H. induction n as [| n IH]; intros i; cbn [sep_loop_f]; [exact I |]. pose proof (S i) as Si.
  destruct (s i) as [r a | | | e |]; auto; [| exists []; split; [reflexivity | apply calm_nil]].
  destruct (Nat.ltb (length r) (length i)); [| exact I]. destruct Si as (t & -> & T). pose proof (H r) as Hr.
  destruct (p r) as [r2 x | | | [] |]; auto; try now apply calm_unfinished.
  - destruct (Nat.leb (length r2) (length r)); [| exact I]. destruct Hr as (t2 & -> & T2). specialize (IH r2).
    rewrite app_assoc. assert (C : calm (t ++ t2)) by now apply calm_app.
    destruct (sep_loop_f n s p r2) as [r3 l | | | [] |]; auto; try now apply calm_unfinished.
    destruct IH as (u & -> & U). exists ((t ++ t2) ++ u). split; [now rewrite <- !app_assoc | now apply calm_app].
  - exists []. split; [reflexivity | apply calm_nil].
Qed.
Lemma tidy_sep_loop (s : parser B) (p : parser A) : tidy s -> tidy p -> tidy (sep_loop s p).
Proof. intros S H i. now apply (tidy_sep_loop_f (Datatypes.S (length i))). Qed.
Lemma tidy_sep_list1 (s : parser B) (p : parser A) : tidy s -> tidy p -> tidy (sep_list1 s p).
Proof. intros S H. apply seg_bind; [exact H |]. intros a. apply seg_bind; [now apply tidy_sep_loop |]. intros l. apply tidy_ret. Qed.
Lemma tidy_sep_list0 (s : parser B) (p : parser A) : tidy s -> tidy p -> tidy (sep_list0 s p).
Proof.
  intros S H i. unfold sep_list0. pose proof (tidy_sep_loop s p S H) as L. specialize (H i).
  destruct (p i) as [r a | | | e |]; auto; [| exists []; split; [reflexivity | apply calm_nil]].
  destruct H as (t & -> & T). specialize (L r).
  destruct (sep_loop s p r) as [r2 l | | | [] |]; auto; try now apply calm_unfinished.
  destruct L as (u & -> & U). exists (t ++ u). split; [now rewrite app_assoc | now apply calm_app].
Qed.
Lemma tidy_vec1 (p : parser (list A)) : tidy p -> tidy (vec1 p). Proof. apply seg_expect. Qed.
Lemma tidy_vec2 (p : parser (list A)) : tidy p -> tidy (vec2 p). Proof. apply seg_expect. Qed.
End Loops.
Lemma tidy_delimited {A B C} (p : parser A) (q : parser B) (r : parser C) : tidy p -> tidy q -> tidy r -> tidy (delimited p q r).
Proof. intros P Q R. apply seg_bind; [exact P |]. intros _. apply seg_bind; [exact Q |]. intros x. apply seg_bind; [exact R |]. intros _. apply tidy_ret. Qed.
Lemma tidy_terminated {A B} (p : parser A) (q : parser B) : tidy p -> tidy q -> tidy (terminated p q).
Proof. intros P Q. apply seg_bind; [exact P |]. intros x. apply seg_bind; [exact Q |]. intros _. apply tidy_ret. Qed.

(** ** A free part of a line, up to a closing character *)
Lemma tidy_closed {A B C} (p : parser A) (q : A -> parser B) (f : A -> B -> parser C) b : seg free p -> stopb b = true ->
  (forall a i, q a i = RPanic \/ match i with
    | [] => q a i = RInc
    | x :: i' => if beq x b then exists y, q a i = ROk i' y else q a i = RErr
    end) -> (forall a y, tidy (f a y)) -> tidy (a <- p ;; y <- q a ;; f a y).
Proof.
  intros H S Q G i. specialize (H i). unfold bind. destruct (p i) as [r a | | | e |]; auto.
  destruct H as (w & -> & W). destruct (Q a r) as [-> | E]; [exact I |]. destruct r as [| x r].
  - rewrite E. apply no_lf_unfinished. now rewrite app_nil_r.
  - destruct (beq_spec x b) as [-> |]; [| now rewrite E]. destruct E as (y & ->). specialize (G a y r).
    replace (w ++ b :: r) with ((w ++ [b]) ++ r) by now rewrite <- app_assoc.
    assert (C0 : calm (w ++ [b])) by (apply calm_closed; [now apply lf_on_line | exact S | apply calm_nil]).
    destruct (f a y r) as [r2 z | | | [] |]; auto; try now apply calm_unfinished.
    destruct G as (u & -> & U). exists ((w ++ [b]) ++ u). split; [now rewrite app_assoc | now apply calm_app].
Qed.
Lemma char_is c i : match i with
    | [] => char c i = RInc
    | x :: i' => if beq x c then exists y, char c i = ROk i' y else char c i = RErr
    end.
Proof. destruct i as [| x i]; [reflexivity |]. unfold char, sat. destruct (beq x c); [eauto | reflexivity]. Qed.
Lemma tidy_closed_char {A C} (p : parser A) (f : A -> byte -> parser C) b : seg free p -> stopb b = true ->
  (forall a y, tidy (f a y)) -> tidy (a <- p ;; y <- char b ;; f a y).
Proof. intros H S G. apply (tidy_closed _ (fun _ => char b) f b); auto. intros a i. right. apply char_is. Qed.

Section Core.
Context {F : features}.
Lemma seg_crlf : seg message crlf.
Proof.
  intros i. destruct (crlf i) as [r a | | | e |] eqn:E; auto.
  - apply crlf_inv in E as (e & -> & E). exists e. split; [reflexivity |].
    apply message_last.
    + destruct E as [-> | [_ ->]]; [exists [bCR] | exists []]; (split; [reflexivity |]); cbn; intuition discriminate.
    + intros x (pre & d & l & E2 & _). apply (f_equal (In "{"%byte)) in E2.
      assert (X : In "{"%byte e) by (rewrite E2; apply in_or_app; right; now left).
      destruct E as [-> | [_ ->]]; cbn in X; intuition discriminate.
  - apply no_lf_unfinished. unfold crlf in E. destruct quirk_crlf_relaxed.
    + unfold bind, opt, char, sat in E. destruct i as [| x i]; [now intros [] |]. cbn in E.
      destruct (beq x bCR) eqn:X; [apply beq_eq in X as -> |]; cbn in E.
      * destruct i as [| y i]; [intros [K | []]; discriminate |]. cbn in E. destruct (beq y bLF); discriminate.
      * destruct (beq x bLF); discriminate.
    + destruct i as [| x [| y i]]; cbn in E.
      * now intros [].
      * destruct (beq x bCR) eqn:X; [apply beq_eq in X as -> | discriminate]. intros [K | []]; discriminate.
      * destruct (beq x bCR); [| discriminate]. destruct (beq y bLF); discriminate.
  - unfold crlf in E. destruct quirk_crlf_relaxed.
    + unfold bind, opt, char, sat in E. destruct i as [| x i]; [discriminate |]. cbn in E.
      destruct (beq x bCR) eqn:X; [apply beq_eq in X as -> |]; cbn in E.
      * destruct i as [| y i]; [discriminate |]. cbn in E. destruct (beq y bLF); discriminate.
      * destruct (beq x bLF); discriminate.
    + destruct i as [| x [| y i]]; cbn in E; try discriminate.
      * destruct (beq x bCR); discriminate.
      * destruct (beq x bCR); [| discriminate]. destruct (beq y bLF); discriminate.
Qed.
End Core.
