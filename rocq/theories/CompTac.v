(** Completeness of parsers for a language: every text of the language is read, whatever
    follows it, as long as the next byte is allowed. *)

From Verif Require Import Bytes BytesFacts Features Nom Types Utf8 Conv ParseCore ParserFacts RtFacts RtTac
  ValueSpec ValueFacts Grammar SoundTac.
Open Scope nat_scope.

(** There is a next byte, and it is in [f]. *)
Definition nx (f : byte -> bool) (s : bytes) : bool := match s with b :: _ => f b | [] => false end.
Definition yes : byte -> bool := fun _ => true.
Definition no (g : byte -> bool) : byte -> bool := fun b => negb (g b).
Definition complete {A} (p : parser A) (L : lang A) (f : byte -> bool) : Prop :=
  forall t a s, L t a -> nx f s = true -> p (t ++ s) = ROk s a.
(** The texts of [L] start with a byte in [g]. *)
Definition begins {A} (L : lang A) (g : byte -> bool) : Prop := forall t a, L t a -> nx g t = true.
Definition sub_of (f g : byte -> bool) : bool := forallb (fun b => implb (f b) (g b)) all_bytes.
Arguments sub_of : simpl never.
#[local] Arguments forallb : simpl never.

Section Comp.
Context {F : features}.

Lemma sub_use f g b : sub_of f g = true -> f b = true -> g b = true.
Proof. intros H E. pose proof (byte_forall _ H b) as K. cbv beta in K. rewrite E in K. exact K. Qed.
Lemma nx_weak f g s : nx f s = true -> sub_of f g = true -> nx g s = true.
Proof. destruct s as [| b s]; [discriminate |]. cbn [nx]. intros E H. eapply sub_use; eassumption. Qed.
Lemma nx_app f t s : nx f t = true -> nx f (t ++ s) = true.
Proof. now destruct t. Qed.
Lemma nx_ne f t : nx f t = true -> t <> [].
Proof. now destruct t. Qed.
Lemma nx_len f t s : nx f t = true -> length s < length (t ++ s).
Proof. destruct t; [discriminate |]. rewrite app_length. cbn. lia. Qed.
Lemma nx_yes f s : nx f s = true -> nx yes s = true.
Proof. now destruct s. Qed.
Lemma nx_span g x s : forallb g x = true -> nx (no g) s = true -> span g (x ++ s) = Some (x, s).
Proof. intros H N. apply span_read; [assumption |]. destruct s; [discriminate | exact N]. Qed.

(** Keywords *)
Lemma kw_ok k w s : same_letters k w -> tag_no_case w (k ++ s) = ROk s tt.
Proof.
  induction 1 as [| x y k w S _ IH]; [reflexivity |]. cbn [app tag_no_case].
  apply same_letter_spec in S. now rewrite S, beq_refl.
Qed.
Fixpoint misn (o w : bytes) (f : byte -> bool) : bool :=
  match o with
  | [] => false
  | c :: o' =>
    match w with
    | x :: w' => if ci x c then misn o' w' f else true
    | [] => forallb (fun b => implb (f b) (negb (ci b c))) all_bytes
    end
  end.
Lemma kw_err o k w f s : same_letters k w -> nx f s = true -> misn o w f = true ->
  tag_no_case o (k ++ s) = RErr.
Proof.
  intros S N. revert o. induction S as [| x y k w S _ IH]; intros [| c o] M; try discriminate M.
  - destruct s as [| b s]; [discriminate |]. cbn in *.
    pose proof (byte_forall _ M b) as K. cbn in K. rewrite N in K. unfold ci in K.
    now destruct (beq (lower b) (lower c)).
  - cbn in *. unfold ci in M. apply same_letter_spec in S. rewrite S.
    destruct (beq (lower y) (lower c)); [now apply IH | reflexivity].
Qed.
Lemma kw_err_begins {A} o k w (L : lang A) g t a s : begins L g -> L t a -> same_letters k w ->
  misn o w g = true -> tag_no_case o (k ++ t ++ s) = RErr.
Proof. intros B G S M. eapply kw_err; [exact S | apply nx_app; eapply B; exact G | exact M]. Qed.
(** The same when a known text follows *)
Fixpoint misc (o i : bytes) : bool :=
  match o, i with
  | c :: o', x :: i' => if ci x c then misc o' i' else true
  | _, _ => false
  end.
Lemma misc_err o i : misc o i = true -> tag_no_case o i = RErr.
Proof.
  revert i. induction o as [| c o IH]; intros [| x i] M; try discriminate M. cbn in *.
  unfold ci in M. destruct (beq (lower x) (lower c)); auto.
Qed.
Lemma misc_letters o k w s : same_letters k w -> misc o (k ++ s) = misc o (w ++ s).
Proof.
  intros S. revert o. induction S as [| x y k w S _ IH]; intros [| c o]; try reflexivity.
  cbn. unfold ci. apply same_letter_spec in S. rewrite S. now rewrite IH.
Qed.
Lemma kw_err2 o k w s : same_letters k w -> misc o (w ++ s) = true -> tag_no_case o (k ++ s) = RErr.
Proof. intros S M. apply misc_err. now rewrite (misc_letters _ _ _ _ S). Qed.
(** A keyword that is the beginning of the one that is there *)
Lemma kw_prefix o k w s : same_letters k (o ++ w) ->
  exists k', tag_no_case o (k ++ s) = ROk (k' ++ s) tt /\ same_letters k' w.
Proof.
  intros S. apply Forall2_app_inv_r in S as (u & v & H1 & H2 & ->). exists v.
  rewrite <- app_assoc. split; [now apply kw_ok | exact H2].
Qed.
Lemma kw_prefix' o k w0 w s : same_letters k w0 -> w0 = o ++ w ->
  exists k', tag_no_case o (k ++ s) = ROk (k' ++ s) tt /\ same_letters k' w.
Proof. intros S ->. now apply kw_prefix. Qed.
Lemma letters_lowers k w : same_letters k w -> lowers k = lowers w.
Proof. apply same_letters_spec. Qed.
Lemma kw_lowers o i : tag_no_case o i = tag_no_case (lowers o) i.
Proof.
  revert i. induction o as [| c o IH]; intros [| x i]; try reflexivity. cbn.
  replace (lower (lower c)) with (lower c); [now destruct (beq _ _) |].
  apply beq_eq. revert c. apply byte_forall. vm_compute. reflexivity.
Qed.
Lemma kw_app o k w s x : same_letters k w -> lowers w = lowers (firstn (length w) o) ->
  tag_no_case (skipn (length w) o) s = x -> tag_no_case o (k ++ s) = x.
Proof.
  intros S. revert o. induction S as [| b c k w S _ IH]; intros o E H; [exact H |].
  destruct o as [| d o]; [discriminate |]. cbn in E. injection E as E1 E2. cbn.
  apply same_letter_spec in S. rewrite S, E1, beq_refl. now apply IH.
Qed.
Lemma kw_part o k w s : same_letters k w -> lowers o = lowers (firstn (length o) w) ->
  tag_no_case o (k ++ s) = ROk (skipn (length o) k ++ s) tt.
Proof.
  intros S. revert o. induction S as [| b c k w S _ IH]; intros o E.
  - destruct o; [reflexivity | discriminate].
  - destruct o as [| d o]; [reflexivity |]. cbn in E. injection E as E1 E2. cbn.
    apply same_letter_spec in S. rewrite S, E1, beq_refl. now apply IH.
Qed.
Lemma kw_all o k w s : same_letters k w -> lowers o = lowers w -> tag_no_case o (k ++ s) = ROk s tt.
Proof.
  intros S E. assert (L : length o = length w) by (rewrite <- (map_length lower o), <- (map_length lower w); exact (f_equal _ E)).
  rewrite (kw_part o k w s S) by (rewrite L, firstn_all; exact E).
  rewrite L. replace (length w) with (length k) by (clear -S; induction S; cbn; congruence).
  now rewrite skipn_all.
Qed.
Lemma letters_skip n k w : same_letters k w -> same_letters (skipn n k) (skipn n w).
Proof.
  intros S. revert n. induction S as [| b c k w S H IH]; intros [| n]; cbn; try constructor; auto.
Qed.
Lemma kw_cons c o x s r : ci x c = true -> tag_no_case o s = r -> tag_no_case (c :: o) (x :: s) = r.
Proof. unfold ci. cbn. now intros ->. Qed.
Lemma tag_go w i r : i = w ++ r -> tag w i = ROk r tt.
Proof. intros ->. induction w as [| c w IH]; [reflexivity |]. cbn. now rewrite beq_refl. Qed.
Lemma char_go c i r : i = c :: r -> char c i = ROk r c.
Proof. intros ->. unfold char, sat. now rewrite beq_refl. Qed.
Lemma char_letters c k w s : same_letters k (c :: w) ->
  forallb (fun b => implb (ci b c) (beq b c)) all_bytes = true -> char c (k ++ s) = ROk (skipn 1 k ++ s) c.
Proof.
  intros S H. inversion S as [| b c' k' w' E _]; subst. apply same_letter_spec in E.
  pose proof (byte_forall _ H b) as K. cbv beta in K. unfold ci in K. rewrite E, beq_refl in K.
  cbn [implb] in K. apply beq_eq in K as ->. cbn. unfold char, sat. now rewrite beq_refl.
Qed.
Lemma char_letters1 c k s : same_letters k [c] ->
  forallb (fun b => implb (ci b c) (beq b c)) all_bytes = true -> char c (k ++ s) = ROk s c.
Proof.
  intros S H. rewrite (char_letters c k [] s S H). inversion S as [| b c' k' w' E S']; subst. inversion S'. reflexivity.
Qed.
(** The first letter *)
Lemma same_letter_two b c : same_letter b c -> b = c \/ b = lower c \/ b = upper c.
Proof.
  intros S. apply same_letter_spec in S.
  assert (H : forall b, forallb (fun c => implb (beq (lower b) (lower c))
    (beq b c || beq b (lower c) || beq b (upper c))%bool) all_bytes = true)
    by (apply byte_forall; vm_compute; reflexivity).
  pose proof (byte_forall _ (H b) c) as K. cbn in K. rewrite S, beq_refl in K. cbn in K.
  apply orb_true_iff in K as [K | K]; [apply orb_true_iff in K as [K | K] |];
    apply beq_eq in K; auto.
Qed.
Lemma rej_letters {A} (p : parser A) k c w s : same_letters k (c :: w) ->
  refuses p c -> refuses p (lower c) -> refuses p (upper c) -> p (k ++ s) = RErr.
Proof.
  intros S H1 H2 H3. inversion S as [| b c' k' w' E _]; subst. cbn [app].
  apply same_letter_two in E as [-> | [-> | ->]]; auto.
Qed.
Lemma nx_letters (f : byte -> bool) k c w : same_letters k (c :: w) ->
  f c = true -> f (lower c) = true -> f (upper c) = true -> nx f k = true.
Proof.
  intros S H1 H2 H3. inversion S as [| b c' k' w' E _]; subst. cbn.
  apply same_letter_two in E as [-> | [-> | ->]]; auto.
Qed.
Lemma rej_nx {A} (p : parser A) g i : nx g i = true -> (forall b, g b = true -> refuses p b) -> p i = RErr.
Proof. destruct i as [| b i]; [discriminate |]. cbn. intros H R. now apply R. Qed.

(** Steps *)
Lemma bind_go {A B} (p : parser A) (q : A -> parser B) i r a x :
  p i = ROk r a -> q a r = x -> bind p q i = x.
Proof. unfold bind. now intros ->. Qed.
Lemma bind_err {A B} (p : parser A) (q : A -> parser B) i : p i = RErr -> bind p q i = RErr.
Proof. unfold bind. now intros ->. Qed.
Lemma pmap_go {A B} (f : A -> B) p i r a v : p i = ROk r a -> f a = v -> pmap f p i = ROk r v.
Proof. unfold pmap, bind. now intros -> ->. Qed.
Lemma value_go {A B} (b : B) (p : parser A) i r a : p i = ROk r a -> value b p i = ROk r b.
Proof. unfold value, bind. now intros ->. Qed.
Lemma gate_go {A} (b : bool) (p : parser A) i r a : b = true -> p i = ROk r a -> gate b p i = ROk r a.
Proof. now intros ->. Qed.
Lemma gate_err {A} (b : bool) (p : parser A) i : p i = RErr -> gate b p i = RErr.
Proof. now destruct b. Qed.
Lemma expect_go {A B} (p : parser A) (f : A -> option B) i r a b :
  p i = ROk r a -> f a = Some b -> expect p f i = ROk r b.
Proof. unfold expect, bind. now intros -> ->. Qed.
Lemma map_res_go {A B} (p : parser A) (f : A -> option B) i r a b :
  p i = ROk r a -> f a = Some b -> map_res p f i = ROk r b.
Proof. unfold map_res, bind. now intros -> ->. Qed.
Lemma map_res_err {A B} (p : parser A) (f : A -> option B) i r a :
  p i = ROk r a -> f a = None -> map_res p f i = RErr.
Proof. unfold map_res, bind. now intros -> ->. Qed.
Lemma vecn_go {A} n (p : parser (list A)) i r l : n <= length l ->
  p i = ROk r l -> vecn n p i = ROk r l.
Proof. intros H E. eapply expect_go; [exact E |]. now rewrite (proj2 (Nat.leb_le _ _) H). Qed.
Lemma alt_here {A} (p : parser A) ps i r a : p i = ROk r a -> alt (p :: ps) i = ROk r a.
Proof. rewrite alt_cons. unfold orp. now intros ->. Qed.
Lemma alt_skip {A} (p : parser A) ps i x : p i = RErr -> alt ps i = x -> alt (p :: ps) i = x.
Proof. rewrite alt_cons. unfold orp. now intros -> ->. Qed.
Lemma opt_go {A} (p : parser A) i r a : p i = ROk r a -> opt p i = ROk r (Some a).
Proof. unfold opt. now intros ->. Qed.
Lemma opt_no {A} (p : parser A) i : p i = RErr -> opt p i = ROk i None.
Proof. unfold opt. now intros ->. Qed.
Lemma tag_ok' t s : tag t (t ++ s) = ROk s tt.
Proof. induction t as [| c t IH]; [reflexivity |]. cbn. now rewrite beq_refl. Qed.
Lemma crlf_go e s : eol e -> crlf (e ++ s) = ROk s tt.
Proof.
  unfold crlf. intros [-> | [-> ->]]; [destruct quirk_crlf_relaxed |]; reflexivity.
Qed.
Lemma eol_nx e : eol e -> nx (fun b => beq b bCR || beq b bLF) e = true.
Proof. now intros [-> | [_ ->]]. Qed.

(** Lists *)
Lemma complete_use {A} (p : parser A) L f t a s : complete p L f -> L t a -> nx f s = true ->
  p (t ++ s) = ROk s a.
Proof. intros C G N. now apply C. Qed.
Lemma complete_weak {A} (p : parser A) L f g : complete p L f -> sub_of g f = true -> complete p L g.
Proof. intros C S t a s G N. apply C; [assumption |]. eapply nx_weak; eassumption. Qed.
(** A list ends here: no separator follows, or nothing that can be an item comes after it. *)
Definition stops {A B} (sep : parser B) (p : parser A) (s : bytes) : Prop :=
  sep s = RErr \/ exists r u, sep s = ROk r u /\ length r < length s /\ p r = RErr.
Lemma loop_stop {A B T} (sep : parser B) (p : parser A) (q : list A -> parser T) s : stops sep p s ->
  bind (sep_loop sep p) q s = q [] s.
Proof.
  intros [E | (r & u & E & L & E')]; [now apply sep_loop_stop |].
  unfold bind, sep_loop. cbn [sep_loop_f]. rewrite E. apply Nat.ltb_lt in L. now rewrite L, E'.
Qed.
Lemma loop_go {A B} (p : parser A) L f (sep : parser B) c u :
  complete p L f -> f c = true ->
  (forall s, sep (c :: s) = ROk s u) -> 
  forall t l s, many (after [c] L) t l -> stops sep p s -> nx f s = true ->
  sep_loop sep p (t ++ s) = ROk s l.
Proof.
  intros C Fc Sep t l s M R N.
  assert (E : forall i, bind (sep_loop sep p) (fun l => ret l) i = sep_loop sep p i).
  { intros i. unfold bind. now destruct (sep_loop sep p i). }
  rewrite <- E. clear E.
  assert (G : forall q : list A -> parser (list A), bind (sep_loop sep p) q (t ++ s) = q l s).
  { induction M as [| v a u' l Ha M IH]; intros q.
    - now apply loop_stop.
    - destruct Ha as [w a Hw]. rewrite <- app_assoc.
      assert (N' : nx f (u' ++ s) = true).
      { destruct M as [| ? ? ? ? [? ? ?] ?]; [exact N | exact Fc]. }
      erewrite sep_loop_more with (i1 := w ++ u' ++ s) (a := a);
        [| apply Sep | cbn; lia | apply C; [exact Hw | exact N'] | rewrite (app_length w); lia].
      exact (IH _). }
  apply G.
Qed.
Lemma sep_by_split {A} c (L : lang A) t l : sep_by [c] L t l ->
  exists u v a k, t = u ++ v /\ l = a :: k /\ L u a /\ many (after [c] L) v k.
Proof.
  induction 1 as [t a H | t a u l H S IH].
  - exists t, [], a, []. rewrite app_nil_r. repeat split; [assumption | constructor].
  - destruct IH as (u1 & v1 & b & k & -> & -> & H1 & M). exists t, ([c] ++ u1 ++ v1), a, (b :: k).
    repeat split; [assumption |]. rewrite app_assoc. now repeat constructor.
Qed.
Lemma sep1_go {A B} (p : parser A) L f (sep : parser B) c u :
  complete p L f -> f c = true -> (forall s, sep (c :: s) = ROk s u) ->
  forall t l s, sep_by [c] L t l -> stops sep p s -> nx f s = true ->
  sep_list1 sep p (t ++ s) = ROk s l.
Proof.
  intros C Fc Sep t l s M R N. apply sep_by_split in M as (u1 & v & a & k & -> & -> & H & M).
  rewrite <- app_assoc. unfold sep_list1.
  eapply bind_go.
  - apply C; [exact H |]. destruct M as [| ? ? ? ? [? ? ?] ?]; [exact N | exact Fc].
  - eapply bind_go; [eapply loop_go; eassumption | reflexivity].
Qed.
Lemma complete_sep1 {A B} (p : parser A) L f (sep : parser B) c u g :
  complete p L f -> f c = true -> (forall s, sep (c :: s) = ROk s u) ->
  sub_of g f = true -> (forall b, g b = true -> refuses sep b) ->
  complete (sep_list1 sep p) (sep_by [c] L) g.
Proof.
  intros C Fc Sep S R t l s M N. eapply sep1_go; eauto; [| eapply nx_weak; eassumption].
  left. eapply rej_nx; eassumption.
Qed.
Lemma complete_sep0 {A B} (p : parser A) L f (sep : parser B) c u g :
  complete p L f -> f c = true -> (forall s, sep (c :: s) = ROk s u) ->
  sub_of g f = true -> (forall b, g b = true -> refuses sep b) -> (forall b, g b = true -> refuses p b) ->
  complete (sep_list0 sep p) (list_of [c] L) g.
Proof.
  intros C Fc Sep S R R2 t l s M N. destruct M as [| t l M].
  - unfold sep_list0. cbn [app]. now rewrite (rej_nx p g s N R2).
  - pose proof (complete_sep1 p L f sep c u g C Fc Sep S R t l s M N) as E. rewrite <- E.
    apply sep_by_split in M as (u1 & v & a & k & -> & -> & H & M).
    rewrite <- app_assoc. eapply sep0_sep1. apply C; [exact H |].
    destruct M as [| ? ? ? ? [? ? ?] ?]; [eapply nx_weak; eassumption | exact Fc].
Qed.
Lemma many_go {A} (p : parser A) L f b : complete p L f -> begins L b -> sub_of b f = true ->
  forall t l s, many L t l -> p s = RErr -> nx f s = true -> many0 p (t ++ s) = ROk s l.
Proof.
  intros C Bg Sb t l s M R N.
  assert (E : forall i, bind (many0 p) (fun l => ret l) i = many0 p i).
  { intros i. unfold bind. now destruct (many0 p i). }
  rewrite <- E. clear E.
  assert (G : forall q : list A -> parser (list A), bind (many0 p) q (t ++ s) = q l s).
  { induction M as [| v a u' l Ha M IH]; intros q.
    - now apply many0_stop.
    - rewrite <- app_assoc.
      assert (N' : nx f (u' ++ s) = true).
      { destruct M as [| ? ? ? ? H ?]; [exact N |]. rewrite <- app_assoc. apply nx_app.
        eapply nx_weak; [eapply Bg; exact H | exact Sb]. }
      erewrite many0_more with (r := u' ++ s) (a := a);
        [| apply C; [exact Ha | exact N'] | eapply nx_len; eapply Bg; exact Ha].
      exact (IH _). }
  apply G.
Qed.
Lemma complete_many0 {A} (p : parser A) L f b g : complete p L f -> begins L b -> sub_of b f = true ->
  sub_of g f = true -> (forall c, g c = true -> refuses p c) -> complete (many0 p) (many L) g.
Proof.
  intros C Bg Sb S R t l s M N. eapply many_go; eauto; [| eapply nx_weak; eassumption].
  eapply rej_nx; eassumption.
Qed.
Lemma at_least_split {A} n (L : lang A) t l : at_least (S n) L t l ->
  exists u v a k, t = u ++ v /\ l = a :: k /\ L u a /\ at_least n L v k.
Proof.
  intros [M H]. destruct M as [| u a v k G M]; [cbn in H; lia |].
  exists u, v, a, k. repeat split; auto. cbn in H. lia.
Qed.
Lemma complete_many_m {A} (p : parser A) L f b g n : complete p L f -> begins L b -> sub_of b f = true ->
  sub_of g f = true -> (forall c, g c = true -> refuses p c) -> complete (many_m n p) (at_least n L) g.
Proof.
  intros C Bg Sb S R. induction n as [| n IH]; intros t l s M N.
  - eapply complete_many0; eauto. apply M.
  - apply at_least_split in M as (u & v & a & k & -> & -> & G & M). rewrite <- app_assoc.
    assert (N' : nx f (v ++ s) = true).
    { destruct M as [M _]. destruct M as [| ? ? ? ? H ?]; [eapply nx_weak; eassumption |].
      rewrite <- app_assoc. apply nx_app. eapply nx_weak; [eapply Bg; exact H | exact Sb]. }
    cbn [many_m]. rewrite (C _ _ _ G N').
    rewrite (proj2 (Nat.ltb_lt _ _) (nx_len _ _ (v ++ s) (Bg _ _ G))).
    now rewrite (IH _ _ _ M N).
Qed.
Lemma complete_many1 {A} (p : parser A) L f b g : complete p L f -> begins L b -> sub_of b f = true ->
  sub_of g f = true -> (forall c, g c = true -> refuses p c) -> complete (many1 p) (at_least 1 L) g.
Proof.
  intros C Bg Sb S R t l s M N. apply at_least_split in M as (u & v & a & k & -> & -> & G & M).
  rewrite <- app_assoc. destruct M as [M _].
  assert (N' : nx f (v ++ s) = true).
  { destruct M as [| ? ? ? ? H ?]; [eapply nx_weak; eassumption |].
    rewrite <- app_assoc. apply nx_app. eapply nx_weak; [eapply Bg; exact H | exact Sb]. }
  eapply bind_go; [apply C; eassumption |].
  eapply bind_go; [eapply complete_many0; eassumption | reflexivity].
Qed.
Lemma complete_opt {A} (p : parser A) L f g : complete p L f -> sub_of g f = true ->
  (forall c, g c = true -> refuses p c) -> complete (opt p) (optional L) g.
Proof.
  intros C S R t o s [| u a H] N.
  - apply opt_no. eapply rej_nx; eassumption.
  - apply opt_go, C; [assumption |]. eapply nx_weak; eassumption.
Qed.
Lemma complete_after {A B} (q : parser B) u s0 (p : parser A) L f : complete p L f ->
  (forall s, q (s0 ++ s) = ROk s u) -> complete (q ;;; p) (after s0 L) f.
Proof.
  intros C Q t a s [w b H] N. rewrite <- app_assoc. eapply bind_go; [apply Q |]. now apply C.
Qed.
Lemma complete_parens {A B D} (o : parser B) (p : parser A) (c : parser D) L f x y :
  complete p L f -> f ")"%byte = true -> (forall s, o ("("%byte :: s) = ROk s x) ->
  (forall s, c (")"%byte :: s) = ROk s y) -> complete (delimited o p c) (in_parens L) yes.
Proof.
  intros C Fc O Cl t a s [w b H] N. rewrite <- !app_assoc. unfold delimited.
  eapply bind_go; [apply O |]. eapply bind_go; [apply C; [exact H | exact Fc] |].
  eapply bind_go; [apply Cl | reflexivity].
Qed.
Lemma complete_vecn {A} n (p : parser (list A)) L f : complete p L f ->
  (forall t l, L t l -> n <= length l) -> complete (vecn n p) L f.
Proof. intros C H t a s G N. apply vecn_go; [eapply H; exact G | now apply C]. Qed.
Lemma sep_by_len {A} c (L : lang A) t l : sep_by c L t l -> 1 <= length l.
Proof. induction 1; cbn; lia. Qed.
Lemma parens_len {A} n (L : lang (list A)) : (forall t l, L t l -> n <= length l) ->
  forall t l, in_parens L t l -> n <= length l.
Proof. intros H t l [u m G]. eauto. Qed.
Lemma at_least_len {A} n (L : lang A) t l : at_least n L t l -> n <= length l.
Proof. now intros [_ H]. Qed.

(** First bytes *)
Lemma begins_weak {A} (L : lang A) g h : begins L g -> sub_of g h = true -> begins L h.
Proof. intros B S t a H. eapply nx_weak; [eapply B; exact H | exact S]. Qed.
Lemma begins_sep {A} c (L : lang A) g : begins L g -> begins (sep_by c L) g.
Proof. intros B t l [u a H | u a v k H _]; [eapply B; exact H | apply nx_app; eapply B; exact H]. Qed.
Lemma begins_after {A} b s (L : lang A) g : g b = true -> begins (after (b :: s) L) g.
Proof. intros H t a [u x G]. exact H. Qed.
Lemma begins_parens {A} (L : lang A) g : g "("%byte = true -> begins (in_parens L) g.
Proof. intros H t a [u x G]. exact H. Qed.
Lemma begins_many {A} n (L : lang A) g : begins L g -> begins (at_least (S n) L) g.
Proof.
  intros B t l M. apply at_least_split in M as (u & v & a & k & -> & -> & G & M). apply nx_app.
  eapply B; exact G.
Qed.
Lemma begins_use {A} (L : lang A) g t a f s : begins L g -> L t a -> sub_of g f = true -> nx f (t ++ s) = true.
Proof. intros B G S. apply nx_app. eapply nx_weak; [eapply B; exact G | exact S]. Qed.
Lemma rej_begins {A T} (p : parser A) (L : lang T) g t a s : begins L g -> L t a ->
  (forall b, g b = true -> refuses p b) -> p (t ++ s) = RErr.
Proof. intros B G R. eapply rej_nx; [apply nx_app; eapply B; exact G | exact R]. Qed.
End Comp.

(** ** Running a parser on a text *)
Create HintDb compdb discriminated.
Create HintDb begdb discriminated.
#[export] Hint Constants Opaque : compdb begdb.
#[export] Hint Variables Opaque : compdb begdb.

(** What is known of the letters of a text *)
Ltac letters X tac :=
  match goal with
  | H : same_letters X ?w |- _ => tac H w
  | H : G_nil X |- _ => tac (H : same_letters X (bs "NIL")) (bs "NIL")
  | _ =>
    lazymatch X with
    | skipn ?n ?Y =>
      letters Y ltac:(fun H w =>
        let w' := eval vm_compute in (skipn n w) in
        tac (letters_skip n Y w H : same_letters (skipn n Y) w') w')
    end
  end.
(** [nx f i = true] *)
Ltac nxs := vm_compute; reflexivity.
Ltac nxg :=
  cbn [app];
  lazymatch goal with
  | |- nx _ (_ :: _) = true => vm_compute; reflexivity
  | |- nx _ (?X ++ ?s) = true =>
    first
    [ match goal with
      | H : nx _ (X ++ s) = true |- _ => first [exact H | apply (nx_weak _ _ _ H); vm_compute; reflexivity]
      end
    | letters X ltac:(fun H w =>
        let w' := eval vm_compute in w in
        lazymatch w' with
        | ?c :: ?r => apply nx_app; apply (nx_letters _ X c r (H : same_letters X (c :: r))); vm_compute; reflexivity
        end)
    | match goal with
      | G : ?L X _ |- _ =>
        eapply begins_use with (2 := G); [solve [eauto 3 with begdb nocore] | vm_compute; reflexivity]
      end
    | match goal with
      | G : nx _ X = true |- _ => apply nx_app; apply (nx_weak _ _ _ G); vm_compute; reflexivity
      end ]
  | |- nx _ ?s = true =>
    match goal with
    | H : nx _ s = true |- _ => first [exact H | apply (nx_weak _ _ _ H); vm_compute; reflexivity]
    end
  end.
(** [p i = RErr] by the first byte of [i] *)
Ltac fb :=
  lazymatch goal with
  | |- ?p (?c :: ?s) = RErr => refine ((_ : refuses p c) s); rf
  | |- ?p (?X ++ ?s) = RErr =>
    first
    [ letters X ltac:(fun H w =>
        let w' := eval vm_compute in w in
        lazymatch w' with
        | ?c :: ?r => apply (rej_letters p X c r s (H : same_letters X (c :: r))); rf
        end)
    | match goal with
      | G : ?L X _ |- _ =>
        eapply rej_begins with (2 := G); [solve [eauto 3 with begdb nocore] | let b := fresh in let E := fresh in intros b E; rf]
      end
    | match goal with
      | G : nx _ X = true |- _ => apply (rej_nx p _ (X ++ s) (nx_app _ X s G)); let b := fresh in let E := fresh in intros b E; rf
      end ]
  | |- ?p ?s = RErr =>
    match goal with
    | H : nx _ s = true |- _ => apply (rej_nx p _ s H); let b := fresh in let E := fresh in intros b E; rf
    end
  end.
(** Keywords *)
Ltac kwok :=
  lazymatch goal with
  | |- tag_no_case ?o (?X ++ ?s) = _ =>
    letters X ltac:(fun H w =>
      first [ eapply (kw_all o X w s H); reflexivity
            | eapply (kw_part o X w s H); reflexivity
            | apply (kw_app o X w s _ H); [reflexivity | kwok] ])
  | |- tag_no_case ?o (?x :: ?s) = _ =>
    let o' := eval vm_compute in o in
    lazymatch o' with
    | [] => reflexivity
    | ?c :: ?r => refine (kw_cons c r x s _ _ (_ : tag_no_case r s = _)); [reflexivity | kwok]
    end
  | |- tag_no_case _ _ = _ => reflexivity
  end.
Ltac kwrej :=
  lazymatch goal with
  | |- tag_no_case ?o (?X ++ ?s) = _ =>
    letters X ltac:(fun H w =>
      first [ apply (kw_err2 o X w s H); reflexivity
            | eapply (kw_err o X w _ s H); [eassumption | vm_compute; reflexivity]
            | lazymatch s with ?Y ++ ?s' =>
                match goal with
                | G : ?L Y _ |- _ =>
                  eapply kw_err_begins with (2 := G) (3 := H); [solve [eauto 3 with begdb nocore] | vm_compute; reflexivity]
                end
              end
            | apply (kw_app o X w s _ H); [reflexivity | kwrej] ])
  | |- tag_no_case ?o (?x :: ?s) = _ =>
    first [ reflexivity |
    let o' := eval vm_compute in o in
    lazymatch o' with
    | ?c :: ?r => refine (kw_cons c r x s _ _ (_ : tag_no_case r s = _)); [reflexivity | kwrej]
    end ]
  end.
Ltac charok :=
  first
  [ eapply char_go; reflexivity
  | match goal with
    | |- ?p (?X ++ ?s) = _ =>
      letters X ltac:(fun H w =>
        let w' := eval vm_compute in w in
        lazymatch w' with
        | [?c] => apply (char_letters1 c X s H); vm_compute; reflexivity
        | ?c :: ?r => apply (char_letters c X r s H); vm_compute; reflexivity
        end)
    end ].
Ltac ok :=
  cbv beta iota;
  lazymatch goal with
  | |- ret _ _ = _ => reflexivity
  | |- (if ?b then _ else _) _ = _ =>
    match goal with
    | H : b = true |- _ => rewrite H; ok
    | H : b = false |- _ => rewrite H; ok
    end
  | |- bind _ _ _ = _ => eapply bind_go; [ok | ok]
  | |- pmap _ _ _ = _ => first [ok_tok | eapply pmap_go; [ok | reflexivity]]
  | |- value _ _ _ = _ => eapply value_go; ok
  | |- expect _ _ _ = _ => eapply expect_go; [ok | reflexivity]
  | |- gate _ _ _ = _ => eapply gate_go; [first [assumption | reflexivity] | ok]
  | |- delimited _ _ _ _ = _ => first [ok_tok | unfold delimited; ok]
  | |- terminated _ _ _ = _ => first [ok_tok | unfold terminated; ok]
  | |- alt (_ :: _) _ = _ => first [ok_tok | eapply alt_here; ok | eapply alt_skip; [rej | ok]]
  | |- opt _ _ = _ => first [ok_tok | eapply opt_go; ok | eapply opt_no; rej]
  | |- tag_no_case _ _ = _ => kwok
  | |- tag _ _ = _ => eapply tag_go; reflexivity
  | |- char _ _ = _ => charok
  | |- sp _ = _ => charok
  | |- dquote _ = _ => charok
  | |- crlf _ = _ => apply crlf_go; assumption
  | |- ?p _ = _ =>
    first [ ok_tok
          | lazymatch p with
            | vec1 _ => fail
            | vec2 _ => fail
            | sep_list1 _ _ => fail
            | sep_list0 _ _ => fail
            | many0 _ => fail
            | many1 _ => fail
            | _ => let h := head_of p in unfold h; ok
            end ]
  end
with ok_tok :=
  cbn [app];
  lazymatch goal with
  | |- ?p (?t ++ ?s) = ROk _ _ =>
    match goal with
    | G : ?L t ?a |- _ =>
      simple refine (complete_use p L _ t a s _ G _);
      [shelve | cbv beta; solve [eauto 3 with compdb nocore] | nxg]
    end
  end
with rej :=
  cbv beta iota;
  first
  [ lazymatch goal with
    | |- tag_no_case _ _ = _ => first [assumption | kwrej]
    | |- tag _ _ = _ => reflexivity
    | |- char _ _ = _ => reflexivity
    | |- perr _ = _ => reflexivity
    end
  | solve [fb]
  | lazymatch goal with
    | |- bind _ _ _ = _ => first [eapply bind_err; rej | eapply bind_go; [ok | rej]]
    | |- pmap _ _ _ = _ => eapply bind_err; rej
    | |- value _ _ _ = _ => eapply bind_err; rej
    | |- vec1 _ _ = _ => eapply bind_err; rej
    | |- gate _ _ _ = _ => eapply gate_err; rej
    | |- alt [] _ = _ => reflexivity
    | |- alt (_ :: _) _ = _ => eapply alt_skip; [rej | rej]
    | |- (if ?b then _ else _) _ = _ => destruct b; rej
    | |- ?p _ = _ => let h := head_of p in unfold h; rej
    end ].
(** Write the text as [x1 ++ x2 ++ .. ++ s]. *)
Ltac flat := rewrite <- ?app_assoc; cbn [bs app].
(** The cases of a table *)
Ltac rows I :=
  lazymatch type of I with
  | In _ (_ ++ _) => apply in_app_or in I as [I | I]; rows I
  | In _ (when ?b _) =>
    let E := fresh "Gate" in destruct b eqn:E; [unfold when at 1 in I; cbv iota in I; rows I | destruct I]
  | In _ (_ :: _) => destruct I as [I | I]; [injection I; clear I; intros; subst | rows I]
  | In _ [] => destruct I
  | In _ ?t => let h := head_of t in unfold h in I; rows I
  end.
Ltac words G := let I := fresh in let S := fresh "K" in
  inversion G as [? ? ? I S]; clear G; subst; rows I.
